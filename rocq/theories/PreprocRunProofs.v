(** Lemmas about what the preprocessor makes of the blocks of a makefile. *)
From Coq Require Import Ascii String.
From stdpp Require Import prelude gmap relations.
From RecordUpdate Require Import RecordUpdate.
From Verif Require Import Base BaseProofs Macro MacroSpec MacroProofs PPExpr PPLex
  LineReader LineReaderSpec LineReaderProofs Preproc PreprocSpec PreprocProofs PreprocReadProofs.
Local Open Scope N_scope.

(** ** The stack of files and the lines left in them *)
Definition view : Type := qstr * qstr * list rline.
Definition sameFile (f : tfile) (v : view) : Prop := tf_name f = fst (fst v) /\ tf_dir f = snd (fst v) /\ reads (tf_reader f) (snd v).
Definition tight : list tfile -> list view -> Prop := Forall2 sameFile.
(** Exhausted files stay on the stack until the next line is read. *)
Definition shows (files : list tfile) (vs : list view) : Prop :=
  exists gone rest, files = gone ++ rest /\ Forall (fun f => reads (tf_reader f) []) gone /\ tight rest vs.
Lemma tight_shows files vs : tight files vs -> shows files vs.
Proof. intros H. by exists [], files. Qed.
Lemma shows_pop files n d vs : shows files ((n, d, []) :: vs) -> shows files vs.
Proof.
  intros (gone & rest & -> & F & H). inversion H as [|f v rest' vs' (_ & _ & Hr) H2]; subst.
  exists (gone ++ [f]), rest'. split_and!; [by rewrite <- app_assoc|by apply Forall_app; split; [|apply Forall_singleton]|done].
Qed.
Lemma nextLine_gone gone rest : Forall (fun f => reads (tf_reader f) []) gone -> nextLine false (gone ++ rest) = nextLine false rest.
Proof.
  induction 1 as [|f gone Hf _ IH]; [done|]. cbn [nextLine app]. inversion Hf as [r r' E| |]; subst. rewrite E. done.
Qed.
Lemma nextLine_shows files n d c k ls vs : shows files ((n, d, RRead (MLine (Some c) k) :: ls) :: vs) ->
  exists files', nextLine false files = Got (MLine (Some c) k, files') /\ tight files' ((n, d, ls) :: vs).
Proof.
  intros (gone & rest & -> & F & H). rewrite nextLine_gone by done.
  inversion H as [|f v rest' vs' (En & Ed & Hr) H2]; subst. cbn [fst snd] in *. cbn [nextLine]. inversion Hr as [|r r' c' k' ls' E Hr'|]; subst. rewrite E.
  eexists. split; [done|]. constructor; [by split_and!|done].
Qed.
Lemma nextLine_end files : shows files [] -> nextLine false files = Got (MLine None CNone, []).
Proof.
  intros (gone & rest & -> & F & H). rewrite nextLine_gone by done. by inversion H.
Qed.

(** The state in terms of its context. [Sees]: nothing was put back; [Holds]: the files are those of the line just read. *)
Definition Sees (st : pp) (cx : ctx) (cs : list bool) (vs : list view) : Prop :=
  ctxOf st = cx /\ pp_conds st = cs /\ pp_back st = [] /\ shows (pp_files st) vs.
Definition Holds (st : pp) (cx : ctx) (cs : list bool) (back : list qstr) (vs : list view) : Prop :=
  ctxOf st = cx /\ pp_conds st = cs /\ pp_back st = back /\ tight (pp_files st) vs.
Lemma Holds_Sees st cx cs vs : Holds st cx cs [] vs -> Sees st cx cs vs.
Proof. intros (? & ? & ? & ?). split_and!; [done..|by apply tight_shows]. Qed.
Lemma basic_sees st cx cs n d c k ls vs : Sees st cx cs ((n, d, RRead (MLine (Some c) k) :: ls) :: vs) ->
  exists st1, basicReadLine false st = Got (MLine (Some c) k, st1) /\ Holds st1 cx cs [] ((n, d, ls) :: vs).
Proof.
  intros (Hc & Hcs & Hb & Hs). unfold basicReadLine. rewrite Hb.
  destruct (nextLine_shows _ _ _ _ _ _ _ Hs) as (files' & -> & Ht). eexists. split; [done|]. by split_and!.
Qed.
Lemma basic_end st cx cs : Sees st cx cs [] ->
  exists st1, basicReadLine false st = Got (MLine None CNone, st1) /\ Sees st1 cx cs [].
Proof.
  intros (Hc & Hcs & Hb & Hs). unfold basicReadLine. rewrite Hb.
  rewrite (nextLine_end _ Hs). eexists. split; [done|]. split_and!; [done..|]. exists [], []. split_and!; [done..|constructor].
Qed.
Lemma Sees_pop st cx cs n d vs : Sees st cx cs ((n, d, []) :: vs) -> Sees st cx cs vs.
Proof. intros (? & ? & ? & ?). split_and!; [done..|by eapply shows_pop]. Qed.

(** ** Directive lines *)
Lemma complete_lines ms raw : dirLines ms raw -> forall c0 k0 st cx cs n d ls vs, k0 <> CNone ->
  Sees st cx cs ((n, d, asRead ms ++ ls) :: vs) ->
  exists m st1, completeLoop false m (MLine (Some c0) k0) st
      = Got (MLine (Some (c0 ++ (match k0 with CCaret => [94] | _ => [] end) ++ raw)) CNone, st1)
    /\ Holds st1 cx cs [] ((n, d, ls) :: vs).
Proof.
  induction 1 as [c|c k ms raw Hk H IH]; intros c0 k0 st cx cs n d ls vs Hk0 Hs.
  - destruct (basic_sees _ _ _ _ _ _ _ _ _ Hs) as (st1 & E & Hh). exists 2%nat, st1. split; [|done].
    cbn. rewrite E. cbn. by destruct k0.
  - destruct (basic_sees _ _ _ _ _ _ _ _ _ Hs) as (st1 & E & Hh).
    destruct (IH (c0 ++ (match k0 with CCaret => [94] | _ => [] end) ++ c) k st1 cx cs n d ls vs Hk (Holds_Sees _ _ _ _ Hh)) as (m & st2 & E2 & Hh2).
    exists (S m), st2. split; [|done]. cbn [completeLoop]. rewrite E. cbn [bindP ml_content].
    assert (isComplete (MLine (Some c0) k0) = false) as -> by (by destruct k0).
    unfold joinDirectiveLines. cbn [contentOf ml_content ml_cont default from_option id]. etransitivity; [exact E2|]. by rewrite <- !app_assoc.
Qed.
Lemma read_dir ms raw st cx cs n d ls vs : dirLines ms raw -> Sees st cx cs ((n, d, asRead ms ++ ls) :: vs) ->
  exists next st0 st1, basicReadLine false st = Got (next, st0) /\ completeDirective false next st0 = Got (MLine (Some raw) CNone, st1) /\
    Holds st1 cx cs [] ((n, d, ls) :: vs) /\ Some next = head ms.
Proof.
  intros H Hs. destruct H as [c|c k ms raw Hk H].
  - destruct (basic_sees _ _ _ _ _ _ _ _ _ Hs) as (st1 & E & Hh). exists (MLine (Some c) CNone), st1, st1. by split_and!.
  - destruct (basic_sees _ _ _ _ _ _ _ _ _ Hs) as (st0 & E & Hh).
    destruct (complete_lines _ _ H c k _ _ _ _ _ _ _ Hk (Holds_Sees _ _ _ _ Hh)) as (m & st1 & E1 & Hh1).
    exists (MLine (Some c) k), st0, st1. split_and!; [done| |done|done]. by eapply complete_fuel.
Qed.
Lemma startsWith_bang c : startsWith [33] (33 :: c) = true.
Proof. done. Qed.
Lemma startsWith_noBang c : noBang c -> startsWith [33] c = false.
Proof. unfold noBang. destruct c as [|x c]; [done|]. cbn. intros H. destruct (33 =? x) eqn:E; [|done]. apply N.eqb_eq in E as <-. done. Qed.
Lemma parseDirective_is fs st raw d v : directive (pp_macros st) raw d v ->
  parseDirective false fs raw st = (let* st1 := runDirective false fs d v st in Got (Some st1)).
Proof.
  intros (e & v0 & v1 & He & Hs & Hv & ->). unfold parseDirective. rewrite (proj2 (expandP_got _ _ _) He). cbn [bindP].
  rewrite (isDirective_some _ _ _ _ _ _ (spelled_parseDir _ _ _ Hs)), (proj2 (expandP_got _ _ _) Hv). done.
Qed.
Lemma removeInline_nil : removeInlineComments [] = [].
Proof. done. Qed.
Lemma parseDirective_plain {inl} fs st raw : plain (pp_macros st) raw -> parseDirective inl fs raw st = Got None.
Proof.
  intros (e & He & Hs). unfold parseDirective. rewrite (proj2 (expandP_got _ _ _) He). cbn [bindP].
  destruct (isDirective_none (pp_macros st) e [] [] (proj2 (parseDir_none e) Hs)) as [->| ->]; [done|].
  rewrite expandP_plain by apply not_elem_of_nil. done.
Qed.
Lemma ctx_macros st cx cs b vs : Holds st cx cs b vs -> pp_macros st = cx_macros cx.
Proof. by intros (<- & _). Qed.
(** A directive written with an exclamation mark. *)
Lemma step_bang fs st cx cs n dr ls vs ms d v : dirBang (cx_macros cx) ms d v -> Sees st cx cs ((n, dr, asRead ms ++ ls) :: vs) ->
  exists st1, Holds st1 cx cs [] ((n, dr, ls) :: vs) /\
    forall line, readStep false fs line st = (let* st2 := runDirective false fs d v st1 in Got (Again line st2)).
Proof.
  intros (raw & Hd & (c & k & ms' & ->) & Hdir) Hs.
  destruct (read_dir _ _ _ _ _ _ _ _ _ Hd Hs) as (next & st0 & st1 & E0 & E1 & Hh & [= ->]). exists st1. split; [done|].
  intros line. unfold readStep. rewrite E0. cbn [bindP contentOf ml_content default from_option id]. rewrite startsWith_bang, E1. cbn [bindP contentOf ml_content default from_option id].
  rewrite (parseDirective_is _ _ _ d v) by (by rewrite (ctx_macros _ _ _ _ _ Hh)).
  by destruct (runDirective _ _ _ _ _).
Qed.
Lemma step_bang_plain fs st cx cs n dr ls vs ms raw : dirLines ms raw -> bang ms -> plain (cx_macros cx) raw ->
  Sees st cx cs ((n, dr, asRead ms ++ ls) :: vs) ->
  exists st1, Holds st1 cx cs [] ((n, dr, ls) :: vs) /\ forall line, readStep false fs line st = Got (Again line st1).
Proof.
  intros Hd (c & k & ms' & ->) Hdir Hs.
  destruct (read_dir _ _ _ _ _ _ _ _ _ Hd Hs) as (next & st0 & st1 & E0 & E1 & Hh & [= ->]). exists st1. split; [done|].
  intros line. unfold readStep. rewrite E0. cbn [bindP contentOf ml_content default from_option id]. rewrite startsWith_bang, E1. cbn [bindP contentOf ml_content default from_option id].
  by rewrite parseDirective_plain by (by rewrite (ctx_macros _ _ _ _ _ Hh)).
Qed.

(** ** Sequences of steps *)
(** Calls for the text of inline files. *)
Inductive texts {A} (tmark : option (qstr -> mtable -> A)) (fs : fsenv) : pp -> list A -> pp -> Prop :=
| tx_nil st : texts tmark fs st [] st
| tx_text f st l st1 out st' : tmark = Some f -> readStep true fs (MLine None CNone) st = Got (Deliver (Some l) st1) ->
    texts tmark fs st1 out st' -> texts tmark fs st (f l (pp_macros st1) :: out) st'.
Lemma texts_none {A} fs st (out : list A) st' : texts None fs st out st' -> out = [] /\ st' = st.
Proof. by inversion 1. Qed.
Inductive steps {A} (mark : qstr -> mtable -> A) (tmark : option (qstr -> mtable -> A)) (fs : fsenv) : mline -> pp -> list A -> mline -> pp -> Prop :=
| ss_nil line st : steps mark tmark fs line st [] line st
| ss_again line st line1 st1 out line' st' : readStep false fs line st = Got (Again line1 st1) -> steps mark tmark fs line1 st1 out line' st' ->
    steps mark tmark fs line st out line' st'
| ss_out line st l st1 ts st2 out line' st' : readStep false fs line st = Got (Deliver (Some l) st1) -> texts tmark fs st1 ts st2 ->
    steps mark tmark fs (MLine None CNone) st2 out line' st' -> steps mark tmark fs line st (mark l (pp_macros st1) :: ts ++ out) line' st'.
Arguments ss_nil {A mark tmark}.
Arguments ss_again {A mark tmark}.
Arguments ss_out {A mark tmark}.
Lemma steps_app {A} {mark : qstr -> mtable -> A} {tmark : option (qstr -> mtable -> A)} fs line st out1 line1 st1 out2 line2 st2 : steps mark tmark fs line st out1 line1 st1 -> steps mark tmark fs line1 st1 out2 line2 st2 ->
  steps mark tmark fs line st (out1 ++ out2) line2 st2.
Proof. induction 1; intros H2; [done|by eapply ss_again, IHsteps|]. cbn [app]. rewrite <- app_assoc. by eapply ss_out, IHsteps. Qed.

(** Lines of text. The last step: what happens to the whole line. *)
Definition textStep (fs : fsenv) (line : mline) (st : pp) : ppr stepr :=
  let* m := parseMacro (contentOf line) st in
  match m with
  | Some st2 => Got (Again line st2)
  | None =>
    let* r := parseDirective false fs (contentOf line) st in
    match r with Some st2 => Got (Again line st2) | None => Got (Deliver (ml_content line) st) end
  end.
Lemma step_more {A} {mark : qstr -> mtable -> A} {tmark : option (qstr -> mtable -> A)} fs ms raw : moreLines ms raw -> forall c0 k0 st cx cs n dr ls vs, k0 <> CNone ->
  Sees st cx cs ((n, dr, asRead ms ++ ls) :: vs) ->
  exists line1 st0 st1, Holds st1 cx cs [] ((n, dr, ls) :: vs) /\ steps mark tmark fs (MLine (Some c0) k0) st [] line1 st0 /\
    readStep false fs line1 st0 = textStep fs (MLine (Some (c0 ++ separator k0 ++ raw)) CNone) st1.
Proof.
  induction 1 as [c Hb|c k ms raw Hb Hk H IH]; intros c0 k0 st cx cs n dr ls vs Hk0 Hs.
  - destruct (basic_sees _ _ _ _ _ _ _ _ _ Hs) as (st1 & E & Hh). eexists _, _, st1. split; [done|]. split; [constructor|].
    unfold readStep. rewrite E. cbn [bindP contentOf ml_content default from_option id]. rewrite startsWith_noBang by done.
    by destruct k0.
  - destruct (basic_sees _ _ _ _ _ _ _ _ _ Hs) as (st1 & E & Hh).
    destruct (IH (c0 ++ separator k0 ++ dropSpaces c) k st1 cx cs n dr ls vs Hk (Holds_Sees _ _ _ _ Hh)) as (line1 & st0 & st2 & Hh2 & Hst & E2).
    exists line1, st0, st2. split; [done|]. split; [|by rewrite E2, <- !app_assoc]. eapply ss_again; [|exact Hst].
    unfold readStep. rewrite E. cbn [bindP contentOf ml_content default from_option id]. rewrite startsWith_noBang by done.
    destruct k0; [done|by destruct k..].
Qed.
Lemma step_text {A} {mark : qstr -> mtable -> A} {tmark : option (qstr -> mtable -> A)} fs ms raw st cx cs n dr ls vs line : textLines ms raw -> isComplete line = true ->
  Sees st cx cs ((n, dr, asRead ms ++ ls) :: vs) ->
  exists line1 st0 st1, Holds st1 cx cs [] ((n, dr, ls) :: vs) /\ steps mark tmark fs line st [] line1 st0 /\
    readStep false fs line1 st0 = textStep fs (MLine (Some raw) CNone) st1.
Proof.
  intros H Hl Hs. destruct H as [c Hb|c k ms raw Hb Hk H].
  - destruct (basic_sees _ _ _ _ _ _ _ _ _ Hs) as (st1 & E & Hh). eexists _, _, st1. split; [done|]. split; [constructor|].
    unfold readStep. rewrite E, Hl. cbn [bindP contentOf ml_content default from_option id]. by rewrite startsWith_noBang by done.
  - destruct (basic_sees _ _ _ _ _ _ _ _ _ Hs) as (st1 & E & Hh).
    destruct (step_more (mark := mark) (tmark := tmark) fs ms raw H c k st1 cx cs n dr ls vs Hk (Holds_Sees _ _ _ _ Hh)) as (line1 & st0 & st2 & Hh2 & Hst & E2).
    exists line1, st0, st2. split; [done|]. split; [|done]. eapply ss_again; [|exact Hst].
    unfold readStep. rewrite E, Hl. cbn [bindP contentOf ml_content default from_option id]. rewrite startsWith_noBang by done.
    by destruct k.
Qed.

(** The text of inline files. *)
Lemma step_inline {A} {tmark : option (qstr -> mtable -> A)} fs f ts st cx cs n d ls vs : tmark = Some f ->
  Forall (fun l => noBang l /\ plain (cx_macros cx) l) ts -> Holds st cx cs [] ((n, d, map RText ts ++ ls) :: vs) ->
  exists st1, Holds st1 cx cs [] ((n, d, ls) :: vs) /\
    texts tmark fs st (map (fun l => f l (cx_macros cx)) ts) st1.
Proof.
  intros Ef F. revert st. induction F as [|l ts [Hb Hp] _ IH]; intros st Hh; [exists st; split; [done|constructor]|].
  destruct Hh as (Hc & Hcs & Hbk & Ht). cbn [map app] in Ht. inversion Ht as [|fl v rest vs' (En & Ed & Hr) H2 E1]; subst. cbn [fst snd] in *.
  inversion Hr as [| |r r' l' ls' E Hr']; subst.
  destruct (IH (st <| pp_files := Tfile (tf_name fl) (tf_dir fl) r' :: rest |>)) as (st1 & Hh1 & Hss).
  { split_and!; [done..|]. constructor; [by split_and!|done]. }
  exists st1. split; [done|]. cbn [map].
  change (cx_macros (ctxOf st)) with (pp_macros (st <| pp_files := Tfile (tf_name fl) (tf_dir fl) r' :: rest |>)) at 1.
  assert (Eb : basicReadLine true st = Got (MLine (Some l) CNone, st <| pp_files := Tfile (tf_name fl) (tf_dir fl) r' :: rest |>)).
  { unfold basicReadLine. rewrite Hbk, <- E1. cbn [nextLine]. rewrite E. done. }
  eapply tx_text; [done| |exact Hss]. unfold readStep. rewrite Eb. cbn [bindP contentOf ml_content default from_option id].
  rewrite (startsWith_noBang l) by done. cbn [isComplete ml_cont negb bindP contentOf ml_content default from_option id].
  by rewrite parseDirective_plain.
Qed.

(** ** Macro definitions *)
Lemma level_cons c s : level (c :: s) = ((if (c =? 40)%N then 1 else if (c =? 41)%N then -1 else 0) + level s)%Z.
Proof.
  unfold level. cbn [List.filter]. rewrite (N.eqb_sym 40 c), (N.eqb_sym 41 c).
  destruct (c =? 40) eqn:E; [apply N.eqb_eq in E as ->; cbn; lia|]. destruct (c =? 41); cbn [length]; lia.
Qed.
Lemma equalsPos_spec s : forall i depth j, equalsPos i depth s = Some j <->
  exists l r, s = l ++ 61 :: r /\ j = (i + length l)%nat /\ (depth + level l = 0)%Z /\
    (forall l1 x l2, l = l1 ++ x :: l2 -> (depth + level l1 = 0)%Z -> x <> 61 /\ x <> 58).
Proof.
  induction s as [|c s IH]; intros i depth j; cbn [equalsPos].
  { split; [done|]. intros (l & r & E & _). by destruct l. }
  assert (Hnext : forall delta, (if (c =? 40)%N then 1 else if (c =? 41)%N then -1 else 0)%Z = delta ->
    (c = 61 -> depth <> 0%Z) -> (c = 58 -> depth <> 0%Z) ->
    equalsPos (S i) (depth + delta)%Z s = Some j <->
    exists l r, c :: s = l ++ 61 :: r /\ j = (i + length l)%nat /\ (depth + level l = 0)%Z /\
    (forall l1 x l2, l = l1 ++ x :: l2 -> (depth + level l1 = 0)%Z -> x <> 61 /\ x <> 58)).
  { intros delta Hd H61 H58. rewrite IH. split.
    - intros (l & r & -> & -> & Hl & Hx). exists (c :: l), r. split_and!; [done|cbn; lia|rewrite level_cons, Hd; lia|].
      intros [|y l1] x l2; cbn; intros [= <- ->] H0; [unfold level in H0; cbn in H0; split; intros ->; [by apply H61; [|lia]|by apply H58; [|lia]]|].
      apply (Hx l1 x l2 eq_refl). rewrite level_cons, Hd in H0. lia.
    - intros (l & r & E & -> & Hl & Hx). destruct l as [|y l]; cbn in E.
      { injection E as -> E. unfold level in Hl. cbn in Hl. exfalso. apply H61; [done|lia]. }
      injection E as <- E.
      exists l, r. split_and!; [done|cbn; lia|rewrite level_cons, Hd in Hl; lia|].
      intros l1 x l2 -> H0. apply (Hx (c :: l1) x l2 eq_refl). rewrite level_cons, Hd. lia. }
  destruct (c =? 40) eqn:E40; [apply (Hnext 1%Z); [try done|apply N.eqb_eq in E40 as ->; done..]|].
  destruct (c =? 41) eqn:E41; [apply (Hnext (-1)%Z); [try done|apply N.eqb_eq in E41 as ->; done..]|].
  specialize (Hnext 0%Z eq_refl). rewrite Z.add_0_r in Hnext.
  destruct (depth =? 0)%Z eqn:Ed; [|apply Z.eqb_neq in Ed; by apply Hnext].
  apply Z.eqb_eq in Ed as ->. destruct (c =? 61) eqn:E61; [|destruct (c =? 58) eqn:E58].
  - apply N.eqb_eq in E61 as ->. split.
    + intros [= <-]. exists [], s. split_and!; [done|cbn; lia|done|]. by intros [|? ?].
    + intros (l & r & E & -> & Hl & Hx). destruct l as [|y l]; [cbn; f_equal; lia|]. cbn in E. injection E as <- E.
      by destruct (Hx [] 61 l eq_refl eq_refl).
  - apply N.eqb_eq in E58 as ->. split; [done|]. intros (l & r & E & -> & Hl & Hx). destruct l as [|y l]; [done|].
    cbn in E. injection E as <- E. by destruct (Hx [] 58 l eq_refl eq_refl).
  - apply Hnext; intros ->; done.
Qed.
Lemma parseMacro_defines raw n v st : definesAt raw n v ->
  parseMacro raw st = match setMacroValue n v (pp_macros st) with MOk t => Got (Some (st <| pp_macros := t |>)) | MThrow => Err EMacro end.
Proof.
  intros (c & l & r & -> & Hc & Hl & Hx & -> & ->). unfold parseMacro. cbn [app]. rewrite Hc.
  rewrite (proj2 (equalsPos_spec (l ++ 61 :: r) 1 0 (S (length l)))) by (exists l, r; done).
  cbn -[trimmed removeInlineComments setMacroValue]. unfold qleft. cbn [firstn]. rewrite firstn_app, firstn_all, Nat.sub_diag, firstn_O, app_nil_r.
  unfold qstr, qchar in *.   assert (skipn (S (length l)) (l ++ 61 :: r) = r) as ->; [|done].
  change (61 :: r) with ([61] ++ r). rewrite app_assoc. replace (S (length l)) with (length (l ++ [61])) by (rewrite app_length; cbn; lia).
  by rewrite drop_app.
Qed.
Lemma parseMacro_no raw st : noDefinition raw -> parseMacro raw st = Got None.
Proof.
  intros H. unfold parseMacro. destruct raw as [|c r]; [done|]. destruct (isMacroStart c) eqn:Hc; [|done].
  destruct (equalsPos 1 0 r) as [i|] eqn:E; [|done]. exfalso.
  apply equalsPos_spec in E as (l & r' & -> & _ & Hl & Hx). eapply H. exists c, l, r'. by split_and!.
Qed.

(** ** Skipping *)
Lemma dropSpaces_in c s : c ∈ dropSpaces s -> c ∈ s.
Proof. destruct (dropSpaces_split s) as (b & E & _). intros H. rewrite E. apply elem_of_app. by right. Qed.
Lemma trimmed_in c s : c ∈ trimmed s -> c ∈ s.
Proof.
  unfold trimmed, trimRight. intros H. apply elem_of_list_In, in_rev, elem_of_list_In in H.
  apply dropSpaces_in in H. apply dropSpaces_in. by apply elem_of_list_In, in_rev, elem_of_list_In.
Qed.
Lemma inlineLoop_in fuel from s s' o : inlineLoop fuel from s = (s', o) -> forall c, c ∈ s' -> c ∈ s.
Proof.
  revert from s. induction fuel as [|fuel IH]; intros from s; cbn [inlineLoop]; destruct (indexOfCharFrom 35 s from) as [i|]; try by intros [= <- <-].
  destruct (Nat.ltb 0 i && _); [|by intros [= <- <-]]. intros H c Hc. specialize (IH _ _ H c Hc). unfold qremove in IH.
  apply elem_of_app in IH as [IH|IH]; [rewrite <- (firstn_skipn (i - 1) s)|rewrite <- (firstn_skipn (i - 1 + 1) s)]; apply elem_of_app; auto.
Qed.
Lemma removeInline_in c s : c ∈ removeInlineComments s -> c ∈ s.
Proof.
  unfold removeInlineComments. destruct (inlineLoop _ _ _) as [s' [i|]] eqn:E; intros H; [|by eapply inlineLoop_in].
  eapply inlineLoop_in; [done|]. apply trimmed_in in H. unfold qleft in H. rewrite <- (firstn_skipn i s'). apply elem_of_app. by left.
Qed.
Lemma spelled_value_in e d v c : spelled e d v -> c ∈ v -> c ∈ e.
Proof.
  intros [blanks w tail Fb Hw Fw Ht He|blanks w tail k b bl' v' Fb Fw Ht Hu Hk Et Hb Fb' Hv|w b v' Hl Hb Hv] H.
  - apply trimmed_in in H. apply elem_of_cons. right. rewrite !elem_of_app. tauto.
  - assert (c ∈ trimmed tail) as H2 by (rewrite Et, elem_of_app, elem_of_cons, elem_of_app; tauto).
    apply trimmed_in in H2. apply elem_of_cons. right. rewrite !elem_of_app. tauto.
  - rewrite elem_of_app, elem_of_cons. tauto.
Qed.
(** One iteration of the skip loop. *)
Definition skip1 (a b : nat * qstr * qstr * pp) : Prop :=
  forall n, let '(x, d, v, st) := a in let '(x', d', v', st') := b in skipLoop false (S n) x d v st = skipLoop false n x' d' v' st'.
Lemma skip_reach a b : rtc skip1 a b -> let '(x, d, v, st) := a in let '(x', d', v', st') := b in
  forall n r, skipLoop false n x' d' v' st' = r -> exists m, skipLoop false m x d v st = r.
Proof.
  induction 1 as [[[[x d] v] st]|[[[x d] v] st] [[[x1 d1] v1] st1] [[[x2 d2] v2] st2] H1 _ IH]; [eauto|].
  intros n r E. destruct (IH n r E) as (m & Em). exists (S m). by rewrite (H1 m).
Qed.
Definition after (e d v : qstr) (x : nat) (st : pp) (n : nat) (d' : qstr) (v' : qstr) : ppr pp :=
  if qeqb d' (s2q "ENDIF") then
    match x with O => exitConditional st | S x' => skipLoop false n x' d' v' st end
  else if startsWith (s2q "IF") d' then skipLoop false n (S x) d' v' st
  else if startsWith (s2q "ELSE") d' then
    match x with O => Got (st <| pp_back ::= fun b => b ++ [e] |>) | S _ => skipLoop false n x d' v' st end
  else skipLoop false n x d' v' st.
(** The line read by an iteration. *)
Lemma skip_line st line st1 e : (exists c, ml_content line = Some c /\
    basicReadLine false st = Got (line, st1) /\ startsWith [33] c = false /\ expands (pp_macros st1) c e) \/
  (exists st0 line0 c0, ml_content line0 = Some c0 /\ basicReadLine false st = Got (line0, st0) /\ startsWith [33] c0 = true /\
    completeDirective false line0 st0 = Got (line, st1) /\ expands (pp_macros st1) (contentOf line) e) ->
  (forall d v, spelled e d v -> 36 ∉ v) -> forall x d v, 36 ∉ v ->
  (exists d' v0, spelled e d' v0 /\ 36 ∉ removeInlineComments v0 /\
     forall n, skipLoop false (S n) x d v st = after e d v x st1 n d' (removeInlineComments v0)) \/
  ((forall d' v0, ~ spelled e d' v0) /\ exists v', 36 ∉ v' /\ forall n, skipLoop false (S n) x d v st = skipLoop false n x d v' st1).
Proof.
  intros Hline He x d v Hv.
  assert (Hall : forall n, skipLoop false (S n) x d v st =
    (let* (isD, d', v') := isDirective (pp_macros st1) e d v in if negb isD then skipLoop false n x d' v' st1 else after e d v x st1 n d' v')).
  { intros n. cbn [skipLoop]. destruct Hline as [(c & Ec & Eb & Es & Ee)|(st0 & line0 & c0 & Ec & Eb & Es & Ed & Ee)]; rewrite Eb; cbn [bindP]; rewrite Ec, Es.
    - cbn [bindP]. unfold contentOf. rewrite Ec. cbn [default from_option id]. rewrite (proj2 (expandP_got _ _ _) Ee). done.
    - rewrite Ed. cbn [bindP]. rewrite (proj2 (expandP_got _ _ _) Ee). done. }
  destruct (parseDir e) as [[d' v0]|] eqn:Ep.
  - left. exists d', v0. pose proof (parseDir_spelled _ _ _ Ep) as Hsp. split_and!; [done| |].
    + intros H. apply (He _ _ Hsp). by apply removeInline_in.
    + intros n. rewrite Hall, (isDirective_some _ _ _ _ _ _ Ep), expandP_plain; [done|]. by apply (He _ _ Hsp).
  - right. split; [by apply parseDir_none|]. destruct (isDirective_none (pp_macros st1) e d v Ep) as [Ei|Ei].
    + exists v. split; [done|]. intros n. by rewrite Hall, Ei.
    + rewrite expandP_plain in Ei by done. exists (removeInlineComments v). split; [intros H; by apply Hv, removeInline_in|].
      intros n. by rewrite Hall, Ei.
Qed.
Lemma startsWith_app p s : startsWith p (p ++ s) = true.
Proof. induction p as [|c p IH]; [done|]. cbn. by rewrite N.eqb_refl. Qed.
Lemma startsWith_true p s : startsWith p s = true -> exists t, s = p ++ t.
Proof.
  revert s. induction p as [|c p IH]; intros s; [by exists s|]. destruct s as [|x s]; [done|]. cbn.
  intros H. apply andb_true_iff in H as [H1 H2]. apply N.eqb_eq in H1 as ->. destruct (IH s H2) as (t & ->). by exists t.
Qed.
Lemma settled_value r e : settled r e -> forall d v, spelled e d v -> 36 ∉ v.
Proof. intros H d v Hs. destruct r; cbn in H; try (by eapply H). intros Hin. apply H. by eapply spelled_value_in. Qed.
(** A quiet directive line in a skipped part. *)
Lemma skip_quiet_dir ms r st cx cs n dr ls vs : quietDir (cx_macros cx) r ms -> Sees st cx cs ((n, dr, asRead ms ++ ls) :: vs) ->
  exists e st1, settled r e /\ playsRole e r /\ Holds st1 cx cs [] ((n, dr, ls) :: vs) /\ forall x d v, 36 ∉ v ->
    (exists d' v0, spelled e d' v0 /\ 36 ∉ removeInlineComments v0 /\
     forall n, skipLoop false (S n) x d v st = after e d v x st1 n d' (removeInlineComments v0)) \/
    ((forall d' v0, ~ spelled e d' v0) /\ exists v', 36 ∉ v' /\ forall n, skipLoop false (S n) x d v st = skipLoop false n x d v' st1).
Proof.
  intros (raw & Hd & (c & k & ms' & ->) & (e & He & H36 & Hr)) Hs.
  destruct (read_dir _ _ _ _ _ _ _ _ _ Hd Hs) as (next & st0 & st1 & E0 & E1 & Hh & [= ->]). exists e, st1. split_and!; [done..|].
  intros x d v Hv. eapply skip_line; [|by eapply settled_value|done]. right. exists st0. eexists _, _. split_and!; [|exact E0|apply startsWith_bang|exact E1|]; [done|].
  by rewrite (ctx_macros _ _ _ _ _ Hh).
Qed.
Lemma ifNames_start d : d ∈ ifNames -> startsWith (s2q "IF") d = true /\ qeqb d (s2q "ENDIF") = false.
Proof. unfold ifNames. rewrite !elem_of_cons. intros [->|[->|[->|H]]]; [done..|by apply not_elem_of_nil in H]. Qed.
Lemma elseNames_start d : d ∈ elseNames -> startsWith (s2q "IF") d = false /\ qeqb d (s2q "ENDIF") = false /\ startsWith (s2q "ELSE") d = true.
Proof. unfold elseNames. rewrite !elem_of_cons. intros [->|[->|[->|[->|H]]]]; [done..|by apply not_elem_of_nil in H]. Qed.
Lemma skip_role ms r st cx cs n dr ls vs : quietDir (cx_macros cx) r ms -> Sees st cx cs ((n, dr, asRead ms ++ ls) :: vs) ->
  exists st1, Holds st1 cx cs [] ((n, dr, ls) :: vs) /\ forall x x' d v, 36 ∉ v ->
    match r, x' with RIf, S y => x = y | RElse, S _ => x = x' | REndif, _ => x = S x' | ROther, _ => x = x' | _, _ => False end ->
    exists d' v', 36 ∉ v' /\ skip1 (x, d, v, st) (x', d', v', st1).
Proof.
  intros Hq Hs. destruct (skip_quiet_dir _ _ _ _ _ _ _ _ _ Hq Hs) as (e & st1 & H36 & Hr & Hh & Hk). exists st1. split; [done|].
  intros x x' d v Hv Hx. destruct (Hk x d v Hv) as [(d' & v0 & Hsp & Hv0 & E)|(Hno & v' & Hv' & E)].
  - exists d', (removeInlineComments v0). split; [done|]. intros n0. rewrite E. unfold after. destruct r; cbn [playsRole] in Hr.
    + destruct Hr as (d2 & v2 & Hsp2 & Hin). destruct (spelled_det _ _ _ _ _ Hsp Hsp2) as [-> ->].
      destruct (ifNames_start _ Hin) as [-> ->]. destruct x'; [done|]. by subst.
    + destruct Hr as (d2 & v2 & Hsp2 & Hin). destruct (spelled_det _ _ _ _ _ Hsp Hsp2) as [-> ->].
      destruct (elseNames_start _ Hin) as (-> & -> & ->). destruct x'; [done|]. by subst.
    + destruct Hr as (v2 & Hsp2). destruct (spelled_det _ _ _ _ _ Hsp Hsp2) as [-> ->]. rewrite qeqb_refl. by subst.
    + destruct (Hr _ _ Hsp) as (H1 & H2 & H3). rewrite (proj2 (qeqb_neq _ _) H1).
      destruct (startsWith (s2q "IF") d') eqn:EI; [by apply startsWith_true in EI as (? & ?); apply H2 in H|].
      destruct (startsWith (s2q "ELSE") d') eqn:EE; [by apply startsWith_true in EE as (? & ?); apply H3 in H|]. by subst.
  - destruct r; cbn [playsRole] in Hr.
    + destruct Hr as (d2 & v2 & Hsp2 & _). by apply Hno in Hsp2.
    + destruct Hr as (d2 & v2 & Hsp2 & _). by apply Hno in Hsp2.
    + destruct Hr as (v2 & Hsp2). by apply Hno in Hsp2.
    + subst x'. exists d, v'. split; [done|]. intros n0. by rewrite E.
Qed.
Definition SkipFrom (x : nat) (st : pp) (x' : nat) (st' : pp) : Prop :=
  forall d v, 36 ∉ v -> exists d' v', 36 ∉ v' /\ rtc skip1 (x, d, v, st) (x', d', v', st').
Lemma SkipFrom_refl x st : SkipFrom x st x st.
Proof. intros d v Hv. exists d, v. by split. Qed.
Lemma SkipFrom_trans x st x1 st1 x2 st2 : SkipFrom x st x1 st1 -> SkipFrom x1 st1 x2 st2 -> SkipFrom x st x2 st2.
Proof.
  intros H1 H2 d v Hv. destruct (H1 d v Hv) as (d1 & v1 & Hv1 & R1). destruct (H2 d1 v1 Hv1) as (d2 & v2 & Hv2 & R2).
  exists d2, v2. split; [done|]. by etrans.
Qed.
Lemma SkipFrom_dir ms r st cx cs n dr ls vs : quietDir (cx_macros cx) r ms -> Sees st cx cs ((n, dr, asRead ms ++ ls) :: vs) ->
  exists st1, Sees st1 cx cs ((n, dr, ls) :: vs) /\ forall x x',
    match r, x' with RIf, S y => x = y | RElse, S _ => x = x' | REndif, _ => x = S x' | ROther, _ => x = x' | _, _ => False end ->
    SkipFrom x st x' st1.
Proof.
  intros Hq Hs. destruct (skip_role _ _ _ _ _ _ _ _ _ Hq Hs) as (st1 & Hh & Hk). exists st1. split; [by apply Holds_Sees|].
  intros x x' Hx d v Hv. destruct (Hk x x' d v Hv Hx) as (d' & v' & Hv' & H1). exists d', v'. split; [done|]. by apply rtc_once.
Qed.
Lemma SkipFrom_piece m st cx cs n dr ls vs c : ml_content m = Some c -> noBang c -> quiet (cx_macros cx) ROther c ->
  Sees st cx cs ((n, dr, RRead m :: ls) :: vs) ->
  exists st1, Sees st1 cx cs ((n, dr, ls) :: vs) /\ forall x, SkipFrom x st x st1.
Proof.
  intros Em Hb (e & He & H36 & Hr) Hs. destruct m as [co k]. cbn in Em. subst co.
  destruct (basic_sees _ _ _ _ _ _ _ _ _ Hs) as (st1 & E & Hh). exists st1. split; [by apply Holds_Sees|].
  intros x d v Hv.
  destruct (skip_line st (MLine (Some c) k) st1 e ltac:(left; exists c; rewrite (ctx_macros _ _ _ _ _ Hh), startsWith_noBang by done; done) (settled_value _ _ H36) x d v Hv)
    as [(d' & v0 & Hsp & Hv0 & Es)|(Hno & v' & Hv' & Es)].
  - exists d', (removeInlineComments v0). split; [done|]. apply rtc_once. intros n0. rewrite Es. unfold after.
    destruct (Hr _ _ Hsp) as (H1 & H2 & H3). rewrite (proj2 (qeqb_neq _ _) H1).
    destruct (startsWith (s2q "IF") d') eqn:EI; [by apply startsWith_true in EI as (? & ?); apply H2 in H|].
    destruct (startsWith (s2q "ELSE") d') eqn:EE; [by apply startsWith_true in EE as (? & ?); apply H3 in H|]. done.
  - exists d, v'. split; [done|]. apply rtc_once. intros n0. by rewrite Es.
Qed.
Lemma SkipFrom_line ms st cx cs n dr ls vs : quietLine (cx_macros cx) ms -> Sees st cx cs ((n, dr, asRead ms ++ ls) :: vs) ->
  exists st1, Sees st1 cx cs ((n, dr, ls) :: vs) /\ forall x, SkipFrom x st x st1.
Proof.
  intros [Hq|Hq] Hs.
  - destruct (SkipFrom_dir _ _ _ _ _ _ _ _ _ Hq Hs) as (st1 & Hs1 & H). exists st1. split; [done|]. intros x. by apply H.
  - revert st Hs. induction Hq as [|m ms (c & Ec & Hb & Hm) _ IH]; intros st Hs; [exists st; split; [done|]; intros; apply SkipFrom_refl|].
    destruct (SkipFrom_piece _ _ _ _ _ _ _ _ _ Ec Hb Hm Hs) as (st1 & Hs1 & H1). destruct (IH st1 Hs1) as (st2 & Hs2 & H2).
    exists st2. split; [done|]. intros x. by eapply SkipFrom_trans.
Qed.
Scheme block_mut := Induction for block Sort Prop with alts_mut := Induction for alts Sort Prop.
Combined Scheme block_alts_ind from block_mut, alts_mut.
Lemma SkipFrom_block cx cs n dr vs :
  (forall b, quietB (cx_macros cx) b -> forall st ls, Sees st cx cs ((n, dr, writtenB b ++ ls) :: vs) ->
     exists st1, Sees st1 cx cs ((n, dr, ls) :: vs) /\ forall x, SkipFrom x st x st1) /\
  (forall a, quietA (cx_macros cx) a -> forall st ls, Sees st cx cs ((n, dr, writtenA a ++ ls) :: vs) ->
     exists st1, Sees st1 cx cs ((n, dr, ls) :: vs) /\ forall x, SkipFrom (S x) st x st1).
Proof.
  apply block_alts_ind.
  - intros _ st ls Hs. exists st. split; [done|]. intros; apply SkipFrom_refl.
  - intros ms rest IH [Hq Hr] st ls Hs. cbn [writtenB] in Hs. rewrite <- app_assoc in Hs.
    destruct (SkipFrom_line _ _ _ _ _ _ _ _ Hq Hs) as (st1 & Hs1 & H1). destruct (IH Hr st1 ls Hs1) as (st2 & Hs2 & H2).
    exists st2. split; [done|]. intros x. by eapply SkipFrom_trans.
  - intros ms ts rest _ [].
  - intros ms body IHb alt IHa rest IHr (Hq & Hb & Ha & Hr) st ls Hs. cbn [writtenB] in Hs. rewrite <- !app_assoc in Hs.
    destruct (SkipFrom_dir _ _ _ _ _ _ _ _ _ Hq Hs) as (st1 & Hs1 & H1). destruct (IHb Hb _ _ Hs1) as (st2 & Hs2 & H2).
    destruct (IHa Ha _ _ Hs2) as (st3 & Hs3 & H3). destruct (IHr Hr _ _ Hs3) as (st4 & Hs4 & H4).
    exists st4. split; [done|]. intros x. eapply SkipFrom_trans; [by apply (H1 x (S x))|]. eapply SkipFrom_trans; [apply H2|]. by eapply SkipFrom_trans.
  - intros ms Hq st ls Hs. destruct (SkipFrom_dir _ _ _ _ _ _ _ _ _ Hq Hs) as (st1 & Hs1 & H1). exists st1. split; [done|]. intros x. by apply H1.
  - intros ms body IHb fin (Hq & Hb & Hf) st ls Hs. cbn [writtenA] in Hs. rewrite <- !app_assoc in Hs.
    destruct (SkipFrom_dir _ _ _ _ _ _ _ _ _ Hq Hs) as (st1 & Hs1 & H1). destruct (IHb Hb _ _ Hs1) as (st2 & Hs2 & H2).
    destruct (SkipFrom_dir _ _ _ _ _ _ _ _ _ Hf Hs2) as (st3 & Hs3 & H3). exists st3. split; [done|]. intros x.
    eapply SkipFrom_trans; [by apply (H1 (S x) (S x))|]. eapply SkipFrom_trans; [apply H2|]. by apply H3.
  - intros ms body IHb more IHm (Hq & Hb & Hm) st ls Hs. cbn [writtenA] in Hs. rewrite <- !app_assoc in Hs.
    destruct (SkipFrom_dir _ _ _ _ _ _ _ _ _ Hq Hs) as (st1 & Hs1 & H1). destruct (IHb Hb _ _ Hs1) as (st2 & Hs2 & H2).
    destruct (IHm Hm _ _ Hs2) as (st3 & Hs3 & H3). exists st3. split; [done|]. intros x.
    eapply SkipFrom_trans; [by apply (H1 (S x) (S x))|]. by eapply SkipFrom_trans.
Qed.

(** ** What directives do *)
Ltac evalNames := cbv zeta; repeat match goal with |- context [qeqb ?a ?b] =>
  let r := eval vm_compute in (qeqb a b) in lazymatch r with true => idtac | false => idtac end; change (qeqb a b) with r end; cbv iota.
Lemma run_if fs cx d v b cx1 st cs vs : holds fs [] cx d v b cx1 -> Holds st cx cs [] vs ->
  exists st1, runDirective false fs d v st = enterIf false b st1 /\ Holds st1 cx1 cs [] vs.
Proof.
  intros H (<- & Hcs & Hb & Ht). unfold runDirective. inversion H; subst; cbn [app]; evalNames.
  - unfold evaluateExpression, condEnv in *. cbn [cx_macros cx_lex ctxOf] in *.
    rewrite (proj2 (expandP_got _ _ _) H0). cbn [bindP]. rewrite H1. eexists. split; [done|]. by split_and!.
  - eexists. split; [done|]. by split_and!.
  - eexists. split; [done|]. by split_and!.
Qed.
Lemma run_elif fs cx d v b cx1 st cs vs : holds fs (s2q "ELSE") cx d v b cx1 -> Holds st cx (true :: cs) [] vs ->
  exists st1, runDirective false fs d v st = elseif false b st1 /\ Holds st1 cx1 (true :: cs) [] vs.
Proof.
  intros H (<- & Hcs & Hb & Ht). unfold runDirective. inversion H; subst; evalNames.
  - rewrite Hcs. unfold evaluateExpression, condEnv in *. cbn [cx_macros cx_lex ctxOf] in *.
    rewrite (proj2 (expandP_got _ _ _) H0). cbn [bindP]. rewrite H1. eexists. split; [done|]. by split_and!.
  - rewrite Hcs. eexists. split; [done|]. by split_and!.
  - rewrite Hcs. eexists. split; [done|]. by split_and!.
Qed.
Lemma run_past fs d v st cs : d ∈ elseNames -> pp_conds st = false :: cs -> runDirective false fs d v st = skipConditional false st.
Proof.
  intros Hd Hcs. unfold elseNames in Hd. rewrite !elem_of_cons in Hd. unfold runDirective.
  destruct Hd as [->|[->|[->|[->|H]]]]; [..|by apply not_elem_of_nil in H]; evalNames; rewrite Hcs; try done;
  unfold elseif; by rewrite Hcs.
Qed.
Lemma run_else fs v st cs : pp_conds st = true :: cs -> runDirective false fs (s2q "ELSE") v st = Got st.
Proof. intros Hcs. unfold runDirective. evalNames. by rewrite Hcs. Qed.
Lemma run_endif fs v st c cs : pp_conds st = c :: cs -> runDirective false fs (s2q "ENDIF") v st = Got (st <| pp_conds := cs |>).
Proof. intros Hcs. unfold runDirective. evalNames. unfold exitConditional. by rewrite Hcs. Qed.

(** ** The end of a skipped part *)
Lemma expands_plain t s : 36 ∉ s -> expands t s s.
Proof. intros H. by apply expandP_got, expandP_plain. Qed.
Lemma dirQuiet_bang t ms d v : dirQuiet t ms d v -> dirBang t ms d v.
Proof.
  intros (raw & e & v0 & Hd & Hb & He & H36 & Hs & ->). exists raw. split_and!; [done..|]. exists e, v0, v0. split_and!; try done.
  apply expands_plain. intros H. apply H36. by eapply spelled_value_in.
Qed.
Lemma quietDir_else t ms : quietDir t RElse ms -> exists d v, dirQuiet t ms d v /\ d ∈ elseNames.
Proof.
  intros (raw & Hd & Hb & e & He & H36 & (d & v & Hs & Hin)). exists d, (removeInlineComments v). split; [|done].
  exists raw, e, v. by split_and!.
Qed.
Lemma quietDir_end t ms : quietDir t REndif ms -> exists v, dirBang t ms (s2q "ENDIF") v.
Proof.
  intros (raw & Hd & Hb & e & He & H36 & (v & Hs)). exists (removeInlineComments v). exists raw. split_and!; [done..|].
  exists e, v, v. split_and!; [done..| |done]. apply expands_plain. by apply (H36 _ _ Hs).
Qed.
Lemma holds_else fs cx d v b cx1 : holds fs (s2q "ELSE") cx d v b cx1 -> d ∈ elseNames.
Proof. intros H. unfold elseNames. rewrite !elem_of_cons. inversion H; cbn; tauto. Qed.
Lemma skip_end body ms st cx f cs n dr ls vs : quietB (cx_macros cx) body -> quietDir (cx_macros cx) REndif ms ->
  Sees st cx (f :: cs) ((n, dr, writtenB body ++ asRead ms ++ ls) :: vs) ->
  exists st1, skipConditional false st = Got st1 /\ Sees st1 cx cs ((n, dr, ls) :: vs).
Proof.
  intros Hb Hq Hs. destruct (proj1 (SkipFrom_block _ _ _ _ _) body Hb st _ Hs) as (st1 & Hs1 & H1).
  destruct (skip_quiet_dir _ _ _ _ _ _ _ _ _ Hq Hs1) as (e & st2 & H36 & (v2 & Hsp2) & Hh & Hk).
  destruct (H1 0%nat [] [] ltac:(apply not_elem_of_nil)) as (d' & v' & Hv' & R).
  destruct (Hk 0%nat d' v' Hv') as [(d3 & v3 & Hsp & Hv3 & E)|(Hno & _)]; [|by apply Hno in Hsp2].
  destruct (spelled_det _ _ _ _ _ Hsp Hsp2) as [-> ->]. apply skip_reach in R.
  destruct Hh as (Hc & Hcs & Hbk & Ht). specialize (E 0%nat). unfold after in E. rewrite qeqb_refl in E. unfold exitConditional in E. rewrite Hcs in E.
  destruct (R _ _ E) as (m & Em). eexists. split; [by eapply skip_fuel|]. split_and!; [done..|by apply tight_shows].
Qed.
Lemma basic_back st e : pp_back st = [] -> basicReadLine false (st <| pp_back ::= fun b => b ++ [e] |>) = Got (MLine (Some e) CNone, st).
Proof. destruct st. cbn. by intros ->. Qed.
Lemma skip_else fs body ms d v st cx cs n dr ls vs : quietB (cx_macros cx) body -> dirQuiet (cx_macros cx) ms d v -> d ∈ elseNames ->
  Sees st cx cs ((n, dr, writtenB body ++ asRead ms ++ ls) :: vs) ->
  exists st1 st2, skipConditional false st = Got st1 /\ Holds st2 cx cs [] ((n, dr, ls) :: vs) /\
    forall line, readStep false fs line st1 = (let* st3 := runDirective false fs d v st2 in Got (Again line st3)).
Proof.
  intros Hb (raw & e0 & v0 & Hd & Hbg & He0 & H36' & Hsp0 & ->) Hin Hs.
  assert (Hq : quietDir (cx_macros cx) RElse ms). { exists raw. split_and!; [done..|]. exists e0. split_and!; [done..|]. by exists d, v0. }
  destruct (proj1 (SkipFrom_block _ _ _ _ _) body Hb st _ Hs) as (st1 & Hs1 & H1).
  destruct Hbg as (c & k & ms' & ->).
  destruct (read_dir _ _ _ _ _ _ _ _ _ Hd Hs1) as (next & st0 & st2 & E0 & E1 & Hh & [= ->]).
  destruct (H1 0%nat [] [] ltac:(apply not_elem_of_nil)) as (d' & v' & Hv' & R).
  destruct (skip_line st1 (MLine (Some raw) CNone) st2 e0) with (x := 0%nat) (d := d') (v := v') as [(d3 & v3 & Hsp & Hv3 & E)|(Hno & _)]; try done.
  2:{ intros d4 v4 Hs4 H. apply H36'. by eapply spelled_value_in. }
  { right. exists st0. eexists _, _. split_and!; [|exact E0|apply startsWith_bang|exact E1|]; [done|]. by rewrite (ctx_macros _ _ _ _ _ Hh). }
  2:{ by apply Hno in Hsp0. }
  destruct (spelled_det _ _ _ _ _ Hsp Hsp0) as [-> ->]. apply skip_reach in R.
  specialize (E 0%nat). unfold after in E. destruct (elseNames_start _ Hin) as (EI & EE & EL). rewrite EI, EE, EL in E.
  destruct (R _ _ E) as (m & Em). eexists _, st2. split; [by eapply skip_fuel|]. split; [done|].
  intros line. unfold readStep. rewrite basic_back by apply Hh. cbn [bindP contentOf ml_content default from_option id].
  assert (startsWith [33] e0 = true) as ->.
  { destruct Hsp; [done..|]. exfalso. apply elseNames_start in Hin as (Hin & _). done. }
  change (completeDirective false (MLine (Some e0) CNone) st2) with (@Got (mline * pp) (MLine (Some e0) CNone, st2)).
  cbn [bindP contentOf ml_content default from_option id].
  rewrite (parseDirective_is _ _ _ d (removeInlineComments v0)).
  - by destruct (runDirective _ _ _ _ _).
  - rewrite (ctx_macros _ _ _ _ _ Hh). exists e0, v0, v0. split_and!; [by apply expands_plain|done| |done]. apply expands_plain.
    intros H. apply H36'. by eapply spelled_value_in.
Qed.

(** ** Blocks *)
Lemma past_skip {A} {mark : qstr -> mtable -> A} {tmark : option (qstr -> mtable -> A)} fs cx a : quietA (cx_macros cx) a -> forall body st cs n d ls vs line, quietB (cx_macros cx) body ->
  Sees st cx (false :: cs) ((n, d, writtenB body ++ writtenA a ++ ls) :: vs) ->
  exists st1 st', skipConditional false st = Got st1 /\ steps mark tmark fs line st1 [] line st' /\ Sees st' cx cs ((n, d, ls) :: vs).
Proof.
  induction a as [ms|ms body2 fin|ms body2 more IH]; intros Hq body st cs n d ls vs line Hb Hs; cbn [writtenA quietA] in *.
  - destruct (skip_end _ _ _ _ _ _ _ _ _ _ Hb Hq Hs) as (st1 & E & Hs1). exists st1, st1. split_and!; [done|constructor|done].
  - destruct Hq as (Hq & Hb2 & Hf). rewrite <- !app_assoc in Hs. destruct (quietDir_else _ _ Hq) as (dn & v & Hdq & Hin).
    destruct (skip_else fs _ _ _ _ _ _ _ _ _ _ _ Hb Hdq Hin Hs) as (st1 & st2 & E & Hh & Hst).
    destruct (skip_end _ _ _ _ _ _ _ _ _ _ Hb2 Hf (Holds_Sees _ _ _ _ Hh)) as (st3 & E3 & Hs3).
    exists st1, st3. split_and!; [done| |done]. eapply ss_again; [|constructor]. rewrite Hst.
    rewrite (run_past _ _ _ _ cs Hin) by apply Hh. by rewrite E3.
  - destruct Hq as (Hq & Hb2 & Hm). rewrite <- !app_assoc in Hs. destruct (quietDir_else _ _ Hq) as (dn & v & Hdq & Hin).
    destruct (skip_else fs _ _ _ _ _ _ _ _ _ _ _ Hb Hdq Hin Hs) as (st1 & st2 & E & Hh & Hst).
    destruct (IH Hm body2 st2 cs n d ls vs line Hb2 (Holds_Sees _ _ _ _ Hh)) as (st3 & st4 & E3 & Hss & Hs3).
    exists st1, st4. split_and!; [done| |done]. eapply ss_again; [|exact Hss]. rewrite Hst.
    rewrite (run_past _ _ _ _ cs Hin) by apply Hh. by rewrite E3.
Qed.
Lemma past_run {A} {mark : qstr -> mtable -> A} {tmark : option (qstr -> mtable -> A)} fs cx a st cs n d ls vs line : quietA (cx_macros cx) a ->
  Sees st cx (false :: cs) ((n, d, writtenA a ++ ls) :: vs) ->
  exists st', steps mark tmark fs line st [] line st' /\ Sees st' cx cs ((n, d, ls) :: vs).
Proof.
  destruct a as [ms|ms body2 fin|ms body2 more]; intros Hq Hs; cbn [writtenA quietA] in *.
  - destruct (quietDir_end _ _ Hq) as (v & Hd). destruct (step_bang fs _ _ _ _ _ _ _ _ _ _ Hd Hs) as (st1 & Hh & Hst).
    eexists. split; [eapply ss_again; [|constructor]; rewrite Hst, (run_endif _ _ _ false cs) by apply Hh; done|].
    destruct Hh as (? & ? & ? & ?). split_and!; [done..|by apply tight_shows].
  - destruct Hq as (Hq & Hb2 & Hf). rewrite <- !app_assoc in Hs. destruct (quietDir_else _ _ Hq) as (dn & v & Hdq & Hin).
    destruct (step_bang fs _ _ _ _ _ _ _ _ _ _ (dirQuiet_bang _ _ _ _ Hdq) Hs) as (st1 & Hh & Hst).
    destruct (skip_end _ _ _ _ _ _ _ _ _ _ Hb2 Hf (Holds_Sees _ _ _ _ Hh)) as (st3 & E3 & Hs3).
    exists st3. split; [|done]. eapply ss_again; [|constructor]. rewrite Hst, (run_past _ _ _ _ cs Hin) by apply Hh. by rewrite E3.
  - destruct Hq as (Hq & Hb2 & Hm). rewrite <- !app_assoc in Hs. destruct (quietDir_else _ _ Hq) as (dn & v & Hdq & Hin).
    destruct (step_bang fs _ _ _ _ _ _ _ _ _ _ (dirQuiet_bang _ _ _ _ Hdq) Hs) as (st1 & Hh & Hst).
    destruct (past_skip (mark := mark) (tmark := tmark) fs cx more Hm body2 st1 cs n d ls vs line Hb2 (Holds_Sees _ _ _ _ Hh)) as (st3 & st4 & E3 & Hss & Hs3).
    exists st4. split; [|done]. eapply ss_again; [|exact Hss]. rewrite Hst, (run_past _ _ _ _ cs Hin) by apply Hh. by rewrite E3.
Qed.
Lemma step_any {A} {mark : qstr -> mtable -> A} {tmark : option (qstr -> mtable -> A)} fs st cx cs n dr ls vs ms d v line : dirAny (cx_macros cx) ms d v -> isComplete line = true ->
  Sees st cx cs ((n, dr, asRead ms ++ ls) :: vs) ->
  exists line1 st0 st1 line2, Holds st1 cx cs [] ((n, dr, ls) :: vs) /\ steps mark tmark fs line st [] line1 st0 /\ isComplete line2 = true /\
    readStep false fs line1 st0 = (let* st2 := runDirective false fs d v st1 in Got (Again line2 st2)).
Proof.
  intros [H|(raw & Ht & Hn & Hd)] Hl Hs.
  - destruct (step_bang fs _ _ _ _ _ _ _ _ _ _ H Hs) as (st1 & Hh & E). exists line, st, st1, line. split_and!; [done|constructor|done|done].
  - destruct (step_text (mark := mark) (tmark := tmark) fs _ _ _ _ _ _ _ _ _ line Ht Hl Hs) as (line1 & st0 & st1 & Hh & Hss & E).
    exists line1, st0, st1, (MLine (Some raw) CNone). split_and!; [done|done|done|]. rewrite E. unfold textStep. cbn [contentOf ml_content default from_option id].
    rewrite parseMacro_no by done. cbn [bindP]. rewrite (parseDirective_is _ _ _ d v) by (by rewrite (ctx_macros _ _ _ _ _ Hh)).
    by destruct (runDirective _ _ _ _ _).
Qed.
Lemma angle_spec v : startsWith [60] v && endsWith [62] v = true <-> exists n, v = 60 :: n ++ [62].
Proof.
  rewrite andb_true_iff. split.
  - intros [H1 H2]. apply startsWith_true in H1 as (t & ->). apply endsWith_spec in H2 as (p & E).
    destruct p as [|x p]; [done|]. cbn in E. injection E as <- ->. by exists p.
  - intros (n & ->). split; [done|]. apply endsWith_spec. by exists (60 :: n).
Qed.
Lemma find_first {A} (f : A -> bool) pre p post : Forall (fun q => f q = false) pre -> f p = true -> find f (pre ++ p :: post) = Some p.
Proof. induction 1 as [|q pre Hq _ IH]; intros Hp; cbn; [by rewrite Hp|]. rewrite Hq. by apply IH. Qed.
Lemma splitOn_parts sep s : forall cur, splitOn sep cur s =
  base.filter (fun d => d <> []) (match parts sep s with [] => [cur] | p :: ps => (cur ++ p) :: ps end).
Proof.
  induction s as [|c r IH]; intros cur; cbn [splitOn parts].
  - rewrite app_nil_r. by destruct cur.
  - destruct (N.eqb_spec c sep) as [->|Hne].
    + rewrite decide_True by done. rewrite app_nil_r. rewrite filter_cons.
      assert (Hr : splitOn sep [] r = base.filter (fun d => d <> []) (parts sep r)).
      { rewrite IH. destruct r as [|c' r']; [done|]. cbn [parts]. destruct (decide (c' = sep)); [done|]. by destruct (parts sep r'). }
      rewrite Hr. by destruct cur.
    + rewrite decide_False by done. rewrite IH. destruct (parts sep r) as [|p ps] eqn:Ep; [done|]. by rewrite <- app_assoc.
Qed.
Lemma splitOn_dirs sep s : splitOn sep [] s = base.filter (fun d => d <> []) (parts sep s).
Proof.
  rewrite splitOn_parts. destruct s as [|c' r']; [done|]. cbn [parts]. destruct (decide (c' = sep)); [done|]. by destruct (parts sep r').
Qed.
Lemma findIncludeFile_located fs v st p at_ : map tf_dir (pp_files st) = map snd at_ -> located fs (pp_macros st) at_ v p ->
  findIncludeFile fs v st = Got (fs_abs fs p).
Proof.
  intros Hd (before & after & Hp & Fb & He). unfold findIncludeFile. rewrite Hd. inversion Hp as [n Ev El|v' Hn Ev El]; subst.
  - rewrite (proj2 (angle_spec _)) by eauto.
    assert (Eq : skipn 1 (qchop 1 (60 :: n ++ [62])) = n).
    { rewrite app_comm_cons, qchop_snoc. done. }
    rewrite Eq. unfold below, includeDirs in El. rewrite splitOn_dirs, El. by rewrite find_first.
  - assert (startsWith [60] v && endsWith [62] v = false) as ->.
    { destruct (_ && _) eqn:E; [|done]. apply angle_spec in E as (n & ->). by destruct (Hn n). }
    rewrite app_nil_r. unfold below in El. rewrite El. by rewrite find_first.
Qed.
Lemma tight_dirs files vs : tight files vs -> map tf_dir files = map snd (map fst vs) /\ map tf_name files = map fst (map fst vs).
Proof. induction 1 as [|f v files vs (En & Ed & _) _ [IH1 IH2]]; [done|]. cbn. by rewrite En, Ed, IH1, IH2. Qed.
Lemma run_include fs st cx cs vs v name dir uni text : Holds st cx cs [] vs -> included fs (cx_macros cx) (map fst vs) v name dir ->
  name ∉ map fst (map fst vs) -> fs_open fs name = Some (uni, text) ->
  runDirective false fs (s2q "INCLUDE") v st = Got (st <| pp_files ::= cons (Tfile name dir (openReader uni text)) |>).
Proof.
  intros Hh (p & Hl & He & -> & ->) Hn Ho. unfold runDirective. evalNames. pose proof Hh as (Hc & Hcs & Hb & Ht).
  destruct (tight_dirs _ _ Ht) as [Hd Hnm]. rewrite <- (ctx_macros _ _ _ _ _ Hh) in Hl.
  rewrite (findIncludeFile_located _ _ _ _ _ Hd Hl). cbn [bindP]. unfold internalOpenFile. rewrite He. cbn [negb].
  destruct (existsb _ _) eqn:Ex; [|by rewrite Ho]. exfalso. apply existsb_exists in Ex as (f & Hf & Eq). apply qeqb_spec in Eq.
  apply Hn. rewrite <- Hnm, <- Eq. apply elem_of_list_In, in_map, Hf.
Qed.
Scheme runs_mut := Minimality for runsM Sort Prop with picks_mut := Minimality for picksM Sort Prop.
Combined Scheme runs_picks_ind from runs_mut, picks_mut.

Lemma runs_picks {A} (mark : qstr -> mtable -> A) (tmark : option (qstr -> mtable -> A)) fs :
  (forall at_ cx b out cx', runsM mark tmark fs at_ cx b out cx' -> forall st cs n d ls vs line, at_ = (n, d) :: map fst vs ->
    Sees st cx cs ((n, d, writtenB b ++ ls) :: vs) -> isComplete line = true ->
    exists line' st', isComplete line' = true /\ steps mark tmark fs line st out line' st' /\ Sees st' cx' cs ((n, d, ls) :: vs)) /\
  (forall at_ cx a out cx', picksM mark tmark fs at_ cx a out cx' -> forall st cs n d ls vs line body, at_ = (n, d) :: map fst vs ->
    quietB (cx_macros cx) body -> Sees st cx (true :: cs) ((n, d, writtenB body ++ writtenA a ++ ls) :: vs) -> isComplete line = true ->
    exists st1 line' st', skipConditional false st = Got st1 /\ isComplete line' = true /\ steps mark tmark fs line st1 out line' st' /\
      Sees st' cx' cs ((n, d, ls) :: vs)).
Proof.
  apply runs_picks_ind.
  - intros at_ cx st cs n d ls vs line -> Hs Hl. exists line, st. split_and!; [done|constructor|done..].
  - intros at_ cx ms raw rest out cx' Ht Hn Hp _ IH st cs n d ls vs line -> Hs Hl. cbn [writtenB] in Hs. rewrite <- app_assoc in Hs.
    destruct (step_text (mark := mark) (tmark := tmark) fs _ _ _ _ _ _ _ _ _ line Ht Hl Hs) as (line1 & st0 & st1 & Hh & Hss & E).
    destruct (IH st1 cs n d ls vs (MLine None CNone) eq_refl (Holds_Sees _ _ _ _ Hh) eq_refl) as (line' & st' & Hl' & Hss' & Hs').
    exists line', st'. split_and!; [done| |done]. rewrite <- (ctx_macros _ _ _ _ _ Hh). change (mark raw (pp_macros st1) :: out) with ([] ++ mark raw (pp_macros st1) :: out). eapply steps_app; [exact Hss|]. eapply (ss_out _ _ _ _ _ []); [|constructor|exact Hss'].
    rewrite E. unfold textStep. cbn [contentOf ml_content default from_option id]. rewrite parseMacro_no by done. cbn [bindP].
    by rewrite parseDirective_plain by (by rewrite (ctx_macros _ _ _ _ _ Hh)).
  - intros f at_ cx ms raw ts rest out cx' Ef Ht Hn Hp Hts _ IH st cs n d ls vs line -> Hs Hl. cbn [writtenB] in Hs. rewrite <- !app_assoc in Hs.
    destruct (step_text (mark := mark) (tmark := tmark) fs _ _ _ _ _ _ _ _ _ line Ht Hl Hs) as (line1 & st0 & st1 & Hh & Hss & E).
    destruct (step_inline fs f ts _ _ _ _ _ _ _ Ef Hts Hh) as (st2 & Hh2 & Hss2).
    destruct (IH st2 cs n d ls vs (MLine None CNone) eq_refl (Holds_Sees _ _ _ _ Hh2) eq_refl) as (line' & st' & Hl' & Hss' & Hs').
    exists line', st'. split_and!; [done| |done]. rewrite <- (ctx_macros _ _ _ _ _ Hh) at 1.
    change (mark raw (pp_macros st1) :: map (fun l => f l (cx_macros cx)) ts ++ out) with ([] ++ mark raw (pp_macros st1) :: map (fun l => f l (cx_macros cx)) ts ++ out).
    eapply steps_app; [exact Hss|]. eapply ss_out; [|exact Hss2|exact Hss'].
    rewrite E. unfold textStep. cbn [contentOf ml_content default from_option id]. rewrite parseMacro_no by done. cbn [bindP].
    by rewrite parseDirective_plain by (by rewrite (ctx_macros _ _ _ _ _ Hh)).
  - intros at_ cx ms raw rest out cx' Hd Hb Hp _ IH st cs n d ls vs line -> Hs Hl. cbn [writtenB] in Hs. rewrite <- app_assoc in Hs.
    destruct (step_bang_plain fs _ _ _ _ _ _ _ _ _ Hd Hb Hp Hs) as (st1 & Hh & E).
    destruct (IH st1 cs n d ls vs line eq_refl (Holds_Sees _ _ _ _ Hh) Hl) as (line' & st' & Hl' & Hss' & Hs').
    exists line', st'. split_and!; [done| |done]. by eapply ss_again.
  - intros at_ cx ms raw nm v t rest out cx' Ht Hdf Hset _ IH st cs n d ls vs line -> Hs Hl. cbn [writtenB] in Hs. rewrite <- app_assoc in Hs.
    destruct (step_text (mark := mark) (tmark := tmark) fs _ _ _ _ _ _ _ _ _ line Ht Hl Hs) as (line1 & st0 & st1 & Hh & Hss & E).
    destruct (IH (st1 <| pp_macros := t |>) cs n d ls vs (MLine (Some raw) CNone) eq_refl) as (line' & st' & Hl' & Hss' & Hs').
    { destruct Hh as (<- & ? & ? & ?). split_and!; [done..|by apply tight_shows]. } { done. }
    exists line', st'. split_and!; [done| |done]. change out with ([] ++ out). eapply steps_app; [exact Hss|]. eapply ss_again; [|exact Hss'].
    rewrite E. unfold textStep. cbn [contentOf ml_content default from_option id]. rewrite (parseMacro_defines _ nm v) by done.
    rewrite (ctx_macros _ _ _ _ _ Hh), Hset. done.
  - intros at_ cx ms v rest out cx' Hd _ IH st cs n d ls vs line -> Hs Hl. cbn [writtenB] in Hs. rewrite <- app_assoc in Hs.
    destruct (step_any (mark := mark) (tmark := tmark) fs _ _ _ _ _ _ _ _ _ _ line Hd Hl Hs) as (line1 & st0 & st1 & line2 & Hh & Hss & Hl2 & E).
    destruct (IH st1 cs n d ls vs line2 eq_refl (Holds_Sees _ _ _ _ Hh) Hl2) as (line' & st' & Hl' & Hss' & Hs').
    exists line', st'. split_and!; [done| |done]. change out with ([] ++ out). eapply steps_app; [exact Hss|]. eapply ss_again; [|exact Hss'].
    rewrite E. unfold runDirective. evalNames. done.
  - intros at_ cx ms v rest out cx' Hd _ IH st cs n d ls vs line -> Hs Hl. cbn [writtenB] in Hs. rewrite <- app_assoc in Hs.
    destruct (step_any (mark := mark) (tmark := tmark) fs _ _ _ _ _ _ _ _ _ _ line Hd Hl Hs) as (line1 & st0 & st1 & line2 & Hh & Hss & Hl2 & E).
    destruct (IH (st1 <| pp_msgs ::= cons v |>) cs n d ls vs line2 eq_refl) as (line' & st' & Hl' & Hss' & Hs').
    { destruct Hh as (<- & ? & ? & ?). split_and!; [done..|by apply tight_shows]. } { done. }
    exists line', st'. split_and!; [done| |done]. change out with ([] ++ out). eapply steps_app; [exact Hss|]. eapply ss_again; [|exact Hss'].
    rewrite E. unfold runDirective. evalNames. done.
  - intros at_ cx ms v rest out cx' Hd _ IH st cs n d ls vs line -> Hs Hl. cbn [writtenB] in Hs. rewrite <- app_assoc in Hs.
    destruct (step_any (mark := mark) (tmark := tmark) fs _ _ _ _ _ _ _ _ _ _ line Hd Hl Hs) as (line1 & st0 & st1 & line2 & Hh & Hss & Hl2 & E).
    destruct (IH (st1 <| pp_macros ::= undefineMacro v |>) cs n d ls vs line2 eq_refl) as (line' & st' & Hl' & Hss' & Hs').
    { destruct Hh as (<- & ? & ? & ?). split_and!; [done..|by apply tight_shows]. } { done. }
    exists line', st'. split_and!; [done| |done]. change out with ([] ++ out). eapply steps_app; [exact Hss|]. eapply ss_again; [|exact Hss'].
    rewrite E. unfold runDirective. evalNames. done.
  - intros at_ cx ms v name dir uni text file out1 cx1 rest out2 cx' Hd Hi Hn Ho Hra _ IHf _ IH st cs n d ls vs line -> Hs Hl.
    cbn [writtenB] in Hs. rewrite <- app_assoc in Hs.
    destruct (step_any (mark := mark) (tmark := tmark) fs _ _ _ _ _ _ _ _ _ _ line Hd Hl Hs) as (line1 & st0 & st1 & line2 & Hh & Hss & Hl2 & E).
    rewrite (run_include fs _ _ _ _ _ _ _ _ _ Hh Hi Hn Ho) in E. cbn [bindP] in E.
    destruct (IHf (st1 <| pp_files ::= cons (Tfile name dir (openReader uni text)) |>) cs name dir [] ((n, d, writtenB rest ++ ls) :: vs) line2 eq_refl)
      as (line3 & st3 & Hl3 & Hss3 & Hs3).
    { destruct Hh as (<- & ? & ? & Ht). split_and!; [done..|]. apply tight_shows. rewrite app_nil_r. constructor; [by split_and!|done]. } { done. }
    apply Sees_pop in Hs3. destruct (IH st3 cs n d ls vs line3 eq_refl Hs3 Hl3) as (line' & st' & Hl' & Hss' & Hs').
    exists line', st'. split_and!; [done| |done]. change (out1 ++ out2) with ([] ++ out1 ++ out2). eapply steps_app; [exact Hss|].
    eapply ss_again; [exact E|]. by eapply steps_app.
  - intros at_ cx ms dn v cx1 body out1 cx2 alt rest out2 cx' Hd Hh _ IHb Hq _ IHr st cs n d ls vs line -> Hs Hl.
    cbn [writtenB] in Hs. rewrite <- !app_assoc in Hs.
    destruct (step_bang fs _ _ _ _ _ _ _ _ _ _ Hd Hs) as (st1 & Hh1 & E). destruct (run_if _ _ _ _ _ _ _ _ _ Hh Hh1) as (st2 & E2 & Hh2).
    destruct (IHb (st2 <| pp_conds ::= cons false |>) (false :: cs) n d (writtenA alt ++ writtenB rest ++ ls) vs line eq_refl) as (line3 & st3 & Hl3 & Hss3 & Hs3).
    { destruct Hh2 as (? & <- & ? & ?). split_and!; [done..|by apply tight_shows]. } { done. }
    destruct (past_run (mark := mark) (tmark := tmark) fs _ _ _ _ _ _ _ _ line3 Hq Hs3) as (st4 & Hss4 & Hs4).
    destruct (IHr st4 cs n d ls vs line3 eq_refl Hs4 Hl3) as (line' & st' & Hl' & Hss' & Hs').
    exists line', st'. split_and!; [done| |done]. eapply ss_again; [by rewrite E, E2|]. eapply steps_app; [exact Hss3|].
    change out2 with ([] ++ out2). by eapply steps_app.
  - intros at_ cx ms dn v cx1 body alt out1 cx2 rest out2 cx' Hd Hh Hq _ IHp _ IHr st cs n d ls vs line -> Hs Hl.
    cbn [writtenB] in Hs. rewrite <- !app_assoc in Hs.
    destruct (step_bang fs _ _ _ _ _ _ _ _ _ _ Hd Hs) as (st1 & Hh1 & E). destruct (run_if _ _ _ _ _ _ _ _ _ Hh Hh1) as (st2 & E2 & Hh2).
    destruct (IHp (st2 <| pp_conds ::= cons true |>) cs n d (writtenB rest ++ ls) vs line body eq_refl Hq) as (st3 & line3 & st4 & E3 & Hl3 & Hss3 & Hs3).
    { destruct Hh2 as (? & <- & ? & ?). split_and!; [done..|by apply tight_shows]. } { done. }
    destruct (IHr st4 cs n d ls vs line3 eq_refl Hs3 Hl3) as (line' & st' & Hl' & Hss' & Hs').
    exists line', st'. split_and!; [done| |done]. eapply ss_again; [|by eapply steps_app]. rewrite E, E2. unfold enterIf. cbn [negb].
    rewrite E3. done.
  - intros at_ cx ms Hq st cs n d ls vs line body -> Hb Hs Hl. cbn [writtenA] in Hs.
    destruct (skip_end _ _ _ _ _ _ _ _ _ _ Hb Hq Hs) as (st1 & E & Hs1). exists st1, line, st1. split_and!; [done|done|constructor|done..].
  - intros at_ cx ms v body fin w out cx' Hd _ IHb Hf st cs n d ls vs line body0 -> Hb Hs Hl. cbn [writtenA] in Hs. rewrite <- !app_assoc in Hs.
    destruct (skip_else fs _ _ _ _ _ _ _ _ _ _ _ Hb Hd ltac:(unfold elseNames; rewrite elem_of_cons; by left) Hs) as (st1 & st2 & E & Hh & Hst).
    destruct (IHb st2 (true :: cs) n d (asRead fin ++ ls) vs line eq_refl (Holds_Sees _ _ _ _ Hh) Hl) as (line3 & st3 & Hl3 & Hss3 & Hs3).
    destruct (step_bang fs _ _ _ _ _ _ _ _ _ _ Hf Hs3) as (st4 & Hh4 & E4).
    exists st1, line3, (st4 <| pp_conds := cs |>). split_and!; [done|done| |].
    + eapply ss_again; [rewrite Hst, (run_else _ _ _ cs) by apply Hh; done|]. rewrite <- (app_nil_r out). eapply steps_app; [exact Hss3|].
      eapply ss_again; [|constructor]. by rewrite E4, (run_endif _ _ _ true cs) by apply Hh4.
    + destruct Hh4 as (<- & ? & ? & ?). split_and!; [done..|by apply tight_shows].
  - intros at_ cx ms dn v cx1 body out cx' more Hd Hh _ IHb Hq st cs n d ls vs line body0 -> Hb Hs Hl. cbn [writtenA] in Hs. rewrite <- !app_assoc in Hs.
    destruct (skip_else fs _ _ _ _ _ _ _ _ _ _ _ Hb Hd (holds_else _ _ _ _ _ _ Hh) Hs) as (st1 & st2 & E & Hh2 & Hst).
    destruct (run_elif _ _ _ _ _ _ _ _ _ Hh Hh2) as (st3 & E3 & Hh3).
    destruct (IHb (st3 <| pp_conds := false :: cs |>) (false :: cs) n d (writtenA more ++ ls) vs line eq_refl) as (line4 & st4 & Hl4 & Hss4 & Hs4).
    { destruct Hh3 as (? & ? & ? & ?). split_and!; [done..|by apply tight_shows]. } { done. }
    destruct (past_run (mark := mark) (tmark := tmark) fs _ _ _ _ _ _ _ _ line4 Hq Hs4) as (st5 & Hss5 & Hs5).
    exists st1, line4, st5. split_and!; [done|done| |done]. eapply ss_again.
    + rewrite Hst, E3. unfold elseif. destruct Hh3 as (_ & -> & _). done.
    + rewrite <- (app_nil_r out). by eapply steps_app.
  - intros at_ cx ms dn v cx1 body more out cx' Hd Hh Hq _ IHp st cs n d ls vs line body0 -> Hb Hs Hl. cbn [writtenA] in Hs. rewrite <- !app_assoc in Hs.
    destruct (skip_else fs _ _ _ _ _ _ _ _ _ _ _ Hb Hd (holds_else _ _ _ _ _ _ Hh) Hs) as (st1 & st2 & E & Hh2 & Hst).
    destruct (run_elif _ _ _ _ _ _ _ _ _ Hh Hh2) as (st3 & E3 & Hh3).
    destruct (IHp st3 cs n d ls vs line body eq_refl Hq (Holds_Sees _ _ _ _ Hh3) Hl) as (st4 & line5 & st5 & E4 & Hl5 & Hss5 & Hs5).
    exists st1, line5, st5. split_and!; [done|done| |done]. eapply ss_again; [|exact Hss5].
    rewrite Hst, E3. unfold elseif. rewrite E4. by destruct Hh3 as (_ & -> & _).
Qed.

(** ** Calls of readLine *)
Inductive readingFrom (fs : fsenv) : mline -> pp -> list qstr -> pp -> Prop :=
| rf_end line st st' n : readLoop false fs n line st = Got (None, st') -> readingFrom fs line st [] st'
| rf_line line st l st1 n out st' : readLoop false fs n line st = Got (Some l, st1) -> readingFrom fs (MLine None CNone) st1 out st' ->
    readingFrom fs line st (l :: out) st'.
Inductive failingFrom (fs : fsenv) : mline -> pp -> list qstr -> pperr -> Prop :=
| ff_here line st e n : readLoop false fs n line st = Err e -> failingFrom fs line st [] e
| ff_line line st l st1 n out e : readLoop false fs n line st = Got (Some l, st1) -> failingFrom fs (MLine None CNone) st1 out e ->
    failingFrom fs line st (l :: out) e.
Lemma readingFrom_reading fs line st out st' : readingFrom fs line st out st' -> line = MLine None CNone -> reading fs st out st'.
Proof. induction 1 as [line st st' n E|line st l st1 n out st' E _ IH]; intros ->; [by eapply re_end|by eapply re_line, IH]. Qed.
Lemma failingFrom_failing fs line st out e : failingFrom fs line st out e -> line = MLine None CNone -> failing fs st out e.
Proof. induction 1 as [line st e n E|line st l st1 n out e E _ IH]; intros ->; [by eapply fa_here|by eapply fa_line, IH]. Qed.
Lemma again_loop fs line st line1 st1 n : readStep false fs line st = Got (Again line1 st1) ->
  readLoop false fs (S n) line st = readLoop false fs n line1 st1.
Proof. intros E. cbn [readLoop]. by rewrite E. Qed.
Lemma steps_reading fs line st out line' st' out2 stf : steps (fun l _ => l) None fs line st out line' st' -> readingFrom fs line' st' out2 stf ->
  readingFrom fs line st (out ++ out2) stf.
Proof.
  induction 1 as [|line st line1 st1 out line' st' E _ IH|line st l st1 ts st2 out line' st' E [-> ->]%texts_none _ IH]; intros H; [done| |].
  - specialize (IH H). inversion IH; subst; [eapply rf_end|eapply rf_line; [|done]]; erewrite again_loop; done.
  - eapply (rf_line _ _ _ _ _ 1); [|by apply IH]. cbn [readLoop]. by rewrite E.
Qed.
Lemma steps_failing fs line st out line' st' out2 e : steps (fun l _ => l) None fs line st out line' st' -> failingFrom fs line' st' out2 e ->
  failingFrom fs line st (out ++ out2) e.
Proof.
  induction 1 as [|line st line1 st1 out line' st' E _ IH|line st l st1 ts st2 out line' st' E [-> ->]%texts_none _ IH]; intros H; [done| |].
  - specialize (IH H). inversion IH; subst; [eapply ff_here|eapply ff_line; [|done]]; erewrite again_loop; done.
  - eapply (ff_line _ _ _ _ _ 1); [|by apply IH]. cbn [readLoop]. by rewrite E.
Qed.
Lemma err_failing fs line st e : readStep false fs line st = Err e -> failingFrom fs line st [] e.
Proof. intros E. apply (ff_here _ _ _ _ 1). cbn [readLoop]. by rewrite E. Qed.
Lemma step_end fs line st cx cs : Sees st cx cs [] -> isComplete line = true ->
  exists st1, Sees st1 cx cs [] /\ readStep false fs line st = Got (Deliver None st1).
Proof.
  intros Hs Hl. destruct (basic_end _ _ _ Hs) as (st1 & E & Hs1). exists st1. split; [done|]. unfold readStep. rewrite E, Hl.
  cbn [bindP contentOf ml_content default from_option id]. cbn. done.
Qed.
Lemma end_reading fs line st cx : Sees st cx [] [] -> isComplete line = true -> exists st1, readingFrom fs line st [] st1 /\ Sees st1 cx [] [].
Proof.
  intros Hs Hl. destruct (step_end fs _ _ _ _ Hs Hl) as (st1 & Hs1 & E). exists st1. split; [|done]. apply (rf_end _ _ _ _ 1).
  cbn [readLoop]. rewrite E. cbn [bindP]. destruct Hs1 as (_ & -> & _). done.
Qed.
Lemma end_failing fs line st cx c cs : Sees st cx (c :: cs) [] -> isComplete line = true -> failingFrom fs line st [] EMissingEndif.
Proof.
  intros Hs Hl. destruct (step_end fs _ _ _ _ Hs Hl) as (st1 & Hs1 & E). apply (ff_here _ _ _ _ 1).
  cbn [readLoop]. rewrite E. cbn [bindP]. destruct Hs1 as (_ & -> & _). done.
Qed.
Lemma skip_eof body st cx cs n d : quietB (cx_macros cx) body -> Sees st cx cs [(n, d, writtenB body)] ->
  exists st1, skipConditional false st = Got st1 /\ Sees st1 cx cs [].
Proof.
  intros Hb Hs. rewrite <- (app_nil_r (writtenB body)) in Hs.
  destruct (proj1 (SkipFrom_block _ _ _ _ _) body Hb st _ Hs) as (st1 & Hs1 & H1). apply Sees_pop in Hs1.
  destruct (basic_end _ _ _ Hs1) as (st2 & E & Hs2).
  destruct (H1 0%nat [] [] ltac:(apply not_elem_of_nil)) as (d' & v' & Hv' & R). apply skip_reach in R.
  destruct (R 1%nat (Got st2)) as (m & Em). { cbn [skipLoop]. by rewrite E. }
  exists st2. split; [by eapply skip_fuel|done].
Qed.
Lemma past_eof fs t ls : past t ls -> forall st cx cs n d line, cx_macros cx = t -> Sees st cx (false :: cs) [(n, d, ls)] -> isComplete line = true ->
  exists st1, skipConditional false st = Got st1 /\ failingFrom fs line st1 [] EMissingEndif.
Proof.
  induction 1 as [t b Hb|t b ms ls Hb Hq Hp IH]; intros st cx cs n d line Ht Hs Hl; subst t.
  - destruct (skip_eof _ _ _ _ _ _ Hb Hs) as (st1 & E & Hs1). exists st1. split; [done|]. by eapply end_failing.
  - destruct (quietDir_else _ _ Hq) as (dn & v & Hdq & Hin).
    destruct (skip_else fs _ _ _ _ _ _ _ _ _ _ _ Hb Hdq Hin Hs) as (st1 & st2 & E & Hh & Hst).
    destruct (IH st2 cx cs n d line eq_refl (Holds_Sees _ _ _ _ Hh) Hl) as (st3 & E3 & Hf). exists st1. split; [done|].
    eapply (steps_failing _ _ _ [] _ _ []); [|exact Hf]. eapply ss_again; [|constructor]. rewrite Hst.
    rewrite (run_past _ _ _ _ cs Hin) by apply Hh. by rewrite E3.
Qed.
Scheme fails_mut := Minimality for fails Sort Prop with seeks_mut := Minimality for seeks Sort Prop.
Combined Scheme fails_seeks_ind from fails_mut, seeks_mut.
Lemma run_block {A} {mark : qstr -> mtable -> A} {tmark : option (qstr -> mtable -> A)} fs at_ cx b out cx' st cs n d ls vs line : runsM mark tmark fs at_ cx b out cx' -> at_ = (n, d) :: map fst vs ->
  Sees st cx cs ((n, d, writtenB b ++ ls) :: vs) -> isComplete line = true ->
  exists line' st', isComplete line' = true /\ steps mark tmark fs line st out line' st' /\ Sees st' cx' cs ((n, d, ls) :: vs).
Proof. intros. by eapply (proj1 (runs_picks mark tmark fs)). Qed.
Lemma run_block_dir fs at_ cx b out cx' st cs n dr ls vs line ms d v e : runs fs at_ cx b out cx' -> at_ = (n, dr) :: map fst vs ->
  Sees st cx cs ((n, dr, writtenB b ++ asRead ms ++ ls) :: vs) -> isComplete line = true -> dirAny (cx_macros cx') ms d v ->
  (forall st1, Holds st1 cx' cs [] ((n, dr, ls) :: vs) -> runDirective false fs d v st1 = Err e) -> failingFrom fs line st out e.
Proof.
  intros Hr Hat Hs Hl Hd He. destruct (run_block _ _ _ _ _ _ _ _ _ _ _ _ _ Hr Hat Hs Hl) as (line1 & st1 & Hl1 & Hss & Hs1).
  destruct (step_any (mark := fun l _ => l) (tmark := None) fs _ _ _ _ _ _ _ _ _ _ line1 Hd Hl1 Hs1) as (line2 & st0 & st2 & line3 & Hh & Hss2 & Hl3 & E).
  rewrite <- (app_nil_r out). eapply steps_failing; [exact Hss|]. eapply (steps_failing _ _ _ [] _ _ []); [exact Hss2|].
  apply err_failing. rewrite E, He by done. done.
Qed.
Lemma fails_seeks fs :
  (forall at_ cs cx ls out e, fails fs at_ cs cx ls out e -> forall st n d vs line, at_ = (n, d) :: map fst vs ->
    Sees st cx cs ((n, d, ls) :: vs) -> isComplete line = true -> failingFrom fs line st out e) /\
  (forall at_ cs cx ls out e, seeks fs at_ cs cx ls out e -> forall st n d vs line, at_ = (n, d) :: map fst vs ->
    Sees st cx (true :: cs) ((n, d, ls) :: vs) -> isComplete line = true ->
    exists st1, skipConditional false st = Got st1 /\ failingFrom fs line st1 out e).
Proof.
  apply fails_seeks_ind.
  - intros f c cs cx b out cx' Hr st n d vs line Hat Hs Hl. destruct vs; [|done]. rewrite <- (app_nil_r (writtenB b)) in Hs.
    destruct (run_block _ _ _ _ _ _ _ _ _ _ _ _ line Hr Hat Hs Hl) as (line1 & st1 & Hl1 & Hss & Hs1).
    apply Sees_pop in Hs1. rewrite <- (app_nil_r out). eapply steps_failing; [exact Hss|]. by eapply end_failing.
  - intros f cs cx b out cx' ms ls Hr Hq Hp st n d vs line Hat Hs Hl. destruct vs; [|done].
    destruct (run_block _ _ _ _ _ _ _ _ _ _ _ _ line Hr Hat Hs Hl) as (line1 & st1 & Hl1 & Hss & Hs1).
    destruct (quietDir_else _ _ Hq) as (dn & v & Hdq & Hin).
    destruct (step_bang fs _ _ _ _ _ _ _ _ _ _ (dirQuiet_bang _ _ _ _ Hdq) Hs1) as (st2 & Hh & Hst).
    destruct (past_eof fs _ _ Hp st2 cx' cs n d line1 eq_refl (Holds_Sees _ _ _ _ Hh) Hl1) as (st3 & E3 & Hf).
    rewrite <- (app_nil_r out). eapply steps_failing; [exact Hss|]. eapply (steps_failing _ _ _ [] _ _ []); [|exact Hf].
    eapply ss_again; [|constructor]. rewrite Hst, (run_past _ _ _ _ cs Hin) by apply Hh. by rewrite E3.
  - intros at_ cx b out cx' ms d v ls Hr Hd Hin st n dr vs line Hat Hs Hl. eapply run_block_dir; [done..|by left|].
    intros st1 (_ & Hcs & _). unfold elseNames in Hin. rewrite !elem_of_cons in Hin. unfold runDirective.
    destruct Hin as [->|[->|[->|[->|H]]]]; [..|by apply not_elem_of_nil in H]; evalNames; by rewrite Hcs.
  - intros at_ cx b out cx' ms v ls Hr Hd st n dr vs line Hat Hs Hl. eapply run_block_dir; [done..|by left|].
    intros st1 (_ & Hcs & _). unfold runDirective. evalNames. unfold exitConditional. by rewrite Hcs.
  - intros at_ cs cx b out cx' ms v ls Hr Hd st n dr vs line Hat Hs Hl. eapply run_block_dir; [done..|].
    intros st1 _. unfold runDirective. evalNames. done.
  - intros at_ cs cx b out cx' ms d v ls Hr Hd Hk st n dr vs line Hat Hs Hl. eapply run_block_dir; [done..|].
    intros st1 _. unfold knownNames, ifNames, elseNames in Hk. rewrite !not_elem_of_app, !not_elem_of_cons in Hk.
    destruct Hk as ((?&?&?&_) & (?&?&?&?&_) & (?&?&?&?&?&?&_)). unfold runDirective. cbv zeta.
    repeat match goal with |- context [qeqb d ?x] => rewrite (proj2 (qeqb_neq d x)) by done end. done.
  - intros at_ cs cx b out cx' ms v name dir ls Hr Hd (p & Hloc & Hex & -> & ->) Hin st n dr vs line -> Hs Hl. eapply run_block_dir; [done..|].
    intros st1 Hh. unfold runDirective. evalNames. pose proof Hh as (Hc & Hcs & Hb & Ht). destruct (tight_dirs _ _ Ht) as [Hdd Hnm].
    rewrite <- (ctx_macros _ _ _ _ _ Hh) in Hloc. rewrite (findIncludeFile_located _ _ _ _ _ Hdd Hloc). cbn [bindP].
    unfold internalOpenFile. rewrite Hex. cbn [negb]. cbn [map fst] in Hnm, Hin. rewrite <- Hnm in Hin.
    destruct (existsb _ _) eqn:Ex; [done|]. exfalso. apply elem_of_list_In, in_map_iff in Hin as (f & Ef & Hf).
    assert (true = false); [|done]. rewrite <- Ex. symmetry. apply existsb_exists. exists f. split; [done|]. by apply qeqb_spec.
  - intros at_ cs cx b out cx' ms v ps ls Hr Hd Hp Hno st n dr vs line -> Hs Hl. eapply run_block_dir; [done..|].
    intros st1 Hh. unfold runDirective. evalNames. pose proof Hh as (Hc & Hcs & Hb & Ht). destruct (tight_dirs _ _ Ht) as [Hdd Hnm].
    rewrite <- (ctx_macros _ _ _ _ _ Hh) in Hp. unfold findIncludeFile. rewrite Hdd.
    assert (Hfind : find (fs_exists fs) ps = None).
    { clear -Hno. induction Hno as [|q ps Hq _ IH]; [done|]. cbn. by rewrite Hq. }
    inversion Hp as [m Ev El|v' Hn Ev El]; subst.
    + rewrite (proj2 (angle_spec _)) by eauto.
      assert (Eq : skipn 1 (qchop 1 (60 :: m ++ [62])) = m) by (rewrite app_comm_cons, qchop_snoc; done).
      rewrite Eq. unfold below, includeDirs in Hfind. rewrite splitOn_dirs. cbn [map fst snd] in *. by rewrite Hfind.
    + assert (startsWith [60] v && endsWith [62] v = false) as ->.
      { destruct (_ && _) eqn:E; [|done]. apply angle_spec in E as (m & ->). by destruct (Hn m). }
      rewrite app_nil_r. unfold below in Hfind. cbn [map fst snd] in *. by rewrite Hfind.
  - intros at_ cs cx b out cx1 ms v name dir uni text file out' e ls Hr Hd Hi Hn Ho Hra _ IH st n dr vs line -> Hs Hl.
    destruct (run_block _ _ _ _ _ _ _ _ _ _ _ _ line Hr eq_refl Hs Hl) as (line1 & st1 & Hl1 & Hss & Hs1).
    destruct (step_any (mark := fun l _ => l) (tmark := None) fs _ _ _ _ _ _ _ _ _ _ line1 Hd Hl1 Hs1) as (line2 & st0 & st2 & line3 & Hh & Hss2 & Hl3 & E).
    rewrite (run_include fs _ _ _ _ _ _ _ _ _ Hh Hi Hn Ho) in E. cbn [bindP] in E.
    eapply steps_failing; [exact Hss|]. eapply (steps_failing _ _ _ []); [exact Hss2|].
    eapply (steps_failing _ _ _ []); [eapply ss_again; [exact E|constructor]|].
    eapply (IH _ name dir ((n, dr, ls) :: vs)); [done| |done].
    destruct Hh as (<- & ? & ? & Ht). split_and!; [done..|]. apply tight_shows. constructor; [by split_and!|done].
  - intros at_ cs cx b out cx1 ms d v cx2 ls out' e Hr Hd Hh _ IH st n dr vs line Hat Hs Hl.
    destruct (run_block _ _ _ _ _ _ _ _ _ _ _ _ line Hr Hat Hs Hl) as (line1 & st1 & Hl1 & Hss & Hs1).
    destruct (step_bang fs _ _ _ _ _ _ _ _ _ _ Hd Hs1) as (st2 & Hh1 & E). destruct (run_if _ _ _ _ _ _ _ _ _ Hh Hh1) as (st3 & E2 & Hh2).
    eapply steps_failing; [exact Hss|]. eapply (steps_failing _ _ _ []); [eapply ss_again; [by rewrite E, E2|constructor]|].
    eapply IH; [done| |done]. destruct Hh2 as (? & <- & ? & ?). split_and!; [done..|by apply tight_shows].
  - intros at_ cs cx b out cx1 ms d v cx2 ls out' e Hr Hd Hh _ IH st n dr vs line Hat Hs Hl.
    destruct (run_block _ _ _ _ _ _ _ _ _ _ _ _ line Hr Hat Hs Hl) as (line1 & st1 & Hl1 & Hss & Hs1).
    destruct (step_bang fs _ _ _ _ _ _ _ _ _ _ Hd Hs1) as (st2 & Hh1 & E). destruct (run_if _ _ _ _ _ _ _ _ _ Hh Hh1) as (st3 & E2 & Hh2).
    destruct (IH (st3 <| pp_conds ::= cons true |>) n dr vs line1 Hat) as (st4 & E4 & Hf).
    { destruct Hh2 as (? & <- & ? & ?). split_and!; [done..|by apply tight_shows]. } { done. }
    eapply steps_failing; [exact Hss|]. eapply (steps_failing _ _ _ []); [eapply ss_again; [|constructor]|exact Hf].
    rewrite E, E2. unfold enterIf. cbn [negb]. by rewrite E4.
  - intros f cs cx b Hb st n d vs line Hat Hs Hl. destruct vs; [|done]. destruct (skip_eof _ _ _ _ _ _ Hb Hs) as (st1 & E & Hs1).
    exists st1. split; [done|]. by eapply end_failing.
  - intros at_ cs cx b ms v ls out e Hb Hd _ IH st n d vs line Hat Hs Hl.
    destruct (skip_else fs _ _ _ _ _ _ _ _ _ _ _ Hb Hd ltac:(unfold elseNames; rewrite elem_of_cons; by left) Hs) as (st1 & st2 & E & Hh & Hst).
    exists st1. split; [done|]. eapply (steps_failing _ _ _ []); [eapply ss_again; [rewrite Hst, (run_else _ _ _ cs) by apply Hh; done|constructor]|].
    eapply IH; [done|by apply Holds_Sees|done].
  - intros at_ cs cx b ms dn v cx1 ls out e Hb Hd Hh _ IH st n d vs line Hat Hs Hl.
    destruct (skip_else fs _ _ _ _ _ _ _ _ _ _ _ Hb Hd (holds_else _ _ _ _ _ _ Hh) Hs) as (st1 & st2 & E & Hh2 & Hst).
    destruct (run_elif _ _ _ _ _ _ _ _ _ Hh Hh2) as (st3 & E3 & Hh3). exists st1. split; [done|].
    eapply (steps_failing _ _ _ []); [eapply ss_again; [|constructor]|].
    { rewrite Hst, E3. unfold elseif. destruct Hh3 as (_ & -> & _). done. }
    eapply IH; [done| |done]. destruct Hh3 as (? & ? & ? & ?). split_and!; [done..|by apply tight_shows].
  - intros at_ cs cx b ms dn v cx1 ls out e Hb Hd Hh _ IH st n d vs line Hat Hs Hl.
    destruct (skip_else fs _ _ _ _ _ _ _ _ _ _ _ Hb Hd (holds_else _ _ _ _ _ _ Hh) Hs) as (st1 & st2 & E & Hh2 & Hst).
    destruct (run_elif _ _ _ _ _ _ _ _ _ Hh Hh2) as (st3 & E3 & Hh3). exists st1. split; [done|].
    destruct (IH st3 n d vs line Hat (Holds_Sees _ _ _ _ Hh3) Hl) as (st4 & E4 & Hf).
    eapply (steps_failing _ _ _ []); [eapply ss_again; [|constructor]|exact Hf].
    rewrite Hst, E3. unfold elseif. rewrite E4. by destruct Hh3 as (_ & -> & _).
Qed.
