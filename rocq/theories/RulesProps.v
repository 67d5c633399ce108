(** C28, C29, C30, C45: sequences of rules, names of targets, .SYNC, the first target. *)
From Coq Require Import Ascii String.
From stdpp Require Import prelude gmap.
From Verif Require Import Base Data Infer Front Macro FileMacros FileMacrosProofs MkParse RulesSpec RulesProofs.
Local Open Scope N_scope.

(** The state in which a makefile begins. *)
Definition start (dir : qstr) : rstate := (Mkfile ∅ None dir 0, false, []).

(** ** C28 *)
(** After any sequence of rules every target has the dependents of all its rules in order, and the commands of
    all of them or the first ones, and all its rules have the same separator; every target named is there. *)
Theorem C28_rules fuel dir rs mk ser sync : nativeRules rs -> applyRules fuel rs (start dir) = POk (mk, ser, sync) ->
  (forall t b, mk_targets mk !! t = Some b -> exists us, usesOf (b_name b) (uses (map strip rs)) us /\ blockFor b us) /\
  (forall n r, (n, r) ∈ uses (map strip rs) -> exists t b, mk_targets mk !! t = Some b /\ sameName n (b_name b)).
Proof.
  intros HN H. apply applyRules_ok with (us := []) in H as ((_ & _ & H1 & H2) & _); [done|apply tableFor_empty|done].
Qed.
(** Dependents without file name macros are taken as they are. *)
Lemma expandsTo_plain target d d' : expandsTo target d d' -> magicEscape ∉ d -> d' = d.
Proof.
  assert (E : forall fuel deps tm e, expandName target deps tm fuel None true d = Some (FOk e) -> magicEscape ∉ d -> e = d).
  { intros fuel deps tm e H Hd. unfold expandName in H. destruct fuel; [done|]. cbn [expandNames] in H.
    pose proof (cut_clean d [] Hd) as Hc. rewrite app_nil_r in Hc. rewrite Hc in H. cbn in H. by injection H as <-. }
  induction 1 as [d e fuel deps tm H|d e fuel deps tm x H _ IH]; intros Hd; [by eapply E|]. apply E in H; [|done]. subst. by apply IH.
Qed.
Theorem C28_dependents fuel dir rs mk ser sync : nativeRules rs -> applyRules fuel rs (start dir) = POk (mk, ser, sync) ->
  Forall (fun r => Forall (fun d => magicEscape ∉ d) (pr_deps r)) rs ->
  forall t b, mk_targets mk !! t = Some b -> exists us, usesOf (b_name b) (uses (map strip rs)) us /\ b_deps b = concat (map pr_deps us).
Proof.
  intros HN H HP t b Hb. destruct (C28_rules _ _ _ _ _ _ HN H) as [H1 _]. destruct (H1 _ _ Hb) as (us & Hu & _ & Hd). exists us. split; [done|].
  assert (HU : Forall (fun r => Forall (fun d => magicEscape ∉ d) (pr_deps r)) us).
  { assert (HA : Forall (fun p => Forall (fun d => magicEscape ∉ d) (pr_deps (snd p))) (uses (map strip rs))).
    { clear -HP. apply Forall_forall. intros [n r] Hi. unfold uses in Hi. apply elem_of_list_In, in_flat_map in Hi as (r' & Hr & Hi).
      apply in_map_iff in Hi as (x & [= -> ->] & _). apply in_map_iff in Hr as (r0 & <- & Hr). apply elem_of_list_In in Hr.
      rewrite Forall_forall in HP. specialize (HP _ Hr). cbn [snd strip pr_deps]. apply Forall_forall. intros d Hd. apply elem_of_list_filter in Hd as [_ Hd]. rewrite Forall_forall in HP. by apply HP. }
    clear -Hu HA. induction Hu as [|n r us' rs' Hs _ IH|n r us' rs' Hs _ IH]; [constructor| |]; apply Forall_cons in HA as [? HA]; [constructor; auto|auto]. }
  assert (HC : Forall (fun d => magicEscape ∉ d) (concat (map pr_deps us))).
  { clear -HU. induction HU as [|r us Hr _ IH]; [constructor|]. cbn [map concat]. apply Forall_app. by split. }
  clear -Hd HC. induction Hd as [|d d' l l' H _ IH]; [done|]. apply Forall_cons in HC as [? HC]. apply expandsTo_plain in H; [|done]. subst. f_equal. by apply IH.
Qed.
(** Rules of both kinds for one target are never accepted, and the error is reported for nothing else. *)
Theorem C28_mixed fuel dir rs : nativeRules rs ->
  ((exists n1 r1 n2 r2, (n1, r1) ∈ uses (map strip rs) /\ (n2, r2) ∈ uses (map strip rs) /\ sameName n1 n2 /\ pr_double r1 <> pr_double r2) ->
    forall st, applyRules fuel rs (start dir) <> POk st) /\
  (applyRules fuel rs (start dir) = PErr EMixed ->
    exists n1 r1 n2 r2, (n1, r1) ∈ uses (map strip rs) /\ (n2, r2) ∈ uses (map strip rs) /\ sameName n1 n2 /\ pr_double r1 <> pr_double r2).
Proof.
  intros HN. split.
  - intros (n1 & r1 & n2 & r2 & H1 & H2 & Hs & Hk) [[mk ser] sync] H. destruct (C28_rules _ _ _ _ _ _ HN H) as [HB HU].
    destruct (HU _ _ H1) as (t & b & Hb & Hn1). destruct (HB _ _ Hb) as (us & Hu & (r0 & rs' & -> & _ & Hall & _) & _).
    assert (G : forall n r, (n, r) ∈ uses (map strip rs) -> sameName n1 n -> pr_double r = pr_double r0).
    { intros n r Hi Hn. assert (Hr : r ∈ r0 :: rs').
      { eapply usesOf_in; [exact Hu|]. exists n. split; [done|]. apply sameName_norm. apply sameName_norm in Hn1, Hn. by rewrite <- Hn1. }
      apply elem_of_cons in Hr as [->|Hr]; [done|]. rewrite Forall_forall in Hall. by apply Hall. }
    apply Hk. rewrite (G n1 r1), (G n2 r2); [done|done|done|done|]. by apply sameName_norm.
  - intros H. apply applyRules_mixed with (us := []) in H; [exact H|apply tableFor_empty|done].
Qed.
(** Every makefile that is read is such a sequence of rules. *)
Theorem C28_makefile {R} next tab glob isRel n fuel dir silent stop (r : R) st :
  parseFile next tab glob isRel n fuel dir silent stop r = POk st ->
  exists rs, nativeRules rs /\ applyRules fuel rs (start dir) = POk (s_mk st, s_serial st, s_sync st).
Proof. apply parseFile_rules. Qed.

Definition cmd (s : string) : command := Command (s2q s) [] 0 false false.
Definition rule1 (d : bool) (ts ds : list string) (cs : list command) : prule := Prule d (map s2q ts) (map s2q ds) cs.
Definition blocks (x : pres rstate) : option (list (qstr * list qstr * list qstr)) :=
  match x with POk (mk, _, _) => Some (map (fun p => (fst p, b_deps (snd p), map c_line (b_cmds (snd p)))) (map_to_list (mk_targets mk))) | _ => None end.
Definition rulesEx : list prule :=
  [rule1 false ["aa"; "Bb"] ["x"] []; rule1 false ["bb"] ["y"; "x"] [cmd "one"; cmd "two"]; rule1 true ["dd"] ["u"] [cmd "four"]; rule1 false ["bb"] ["z"] [cmd "three"];
   rule1 true ["Dd"] ["v"] [cmd "five"]; rule1 true [".NOTPARALLEL"] [] []]%string.
Example C28_ex : nativeRules rulesEx /\ blocks (applyRules 9 rulesEx (start [])) = Some
  [(s2q "aa", [s2q "x"], []); (s2q "bb", [s2q "x"; s2q "y"; s2q "x"; s2q "z"], [s2q "one"; s2q "two"]); (s2q "dd", [s2q "u"; s2q "v"], [s2q "four"; s2q "five"])].
Proof. split; [|by vm_compute]. repeat constructor; intros H; repeat (apply elem_of_cons in H as [H|H]; [done|]); by apply elem_of_nil in H. Qed.
Example C28_mixed_ex : applyRules 9 [rule1 false ["a"] [] []; rule1 true ["A"] [] []]%string (start []) = PErr EMixed.
Proof. by vm_compute. Qed.
(** How a makefile is read with no macros and no files. *)
Definition parseEx (lines : list qstr) : pres (pst (list qstr)) :=
  parseFile listNext (fun _ => ∅) (fun _ _ => []) (fun _ => true) 99 99 (s2q "C:/x") false true lines.
Definition rst {R} (x : pres (pst R)) : pres rstate := let+ st := x in POk (s_mk st, s_serial st, s_sync st).
Example C28_makefile_ex : blocks (rst (parseEx (map s2q ["aa Bb : x"; "bb: y x"; " one"; " two"; ""; "dd:: u ; four"; "bb: z"; " three"; "Dd :: v"; " five"]%string)))
  = blocks (applyRules 9 rulesEx (start [])).
Proof. by vm_compute. Qed.

(** ** C29 *)
(** In a makefile that has been read a name finds the target that has the same name except for case and
    slashes, and nothing else; two targets never have the same name. *)
Theorem C29_lookup {R} next tab glob isRel n fuel dir silent stop (r : R) st :
  parseFile next tab glob isRel n fuel dir silent stop r = POk st ->
  (forall (name : list N) t, mk_find (s_mk st) name = Some t <-> exists b, mk_targets (s_mk st) !! t = Some b /\ sameName name (b_name b)) /\
  (forall t1 b1 t2 b2, mk_targets (s_mk st) !! t1 = Some b1 -> mk_targets (s_mk st) !! t2 = Some b2 -> sameName (b_name b1) (b_name b2) -> t1 = t2).
Proof.
  intros H. apply parseFile_rules in H as (rs & HN & H). apply applyRules_ok with (us := []) in H as ((W & _) & _); [|apply tableFor_empty|done].
  split; [intros; by apply find_spec|]. intros t1 b1 t2 b2 H1 H2 Hs. destruct (W _ _ H1) as [K1 N1]. destruct (W _ _ H2) as [K2 N2].
  rewrite K1, K2. by apply sameName_lower.
Qed.
(** Different names are different targets. *)
Theorem C29_different {R} next tab glob isRel n fuel dir silent stop (r : R) st (n1 n2 : list N) t1 t2 :
  parseFile next tab glob isRel n fuel dir silent stop r = POk st -> mk_find (s_mk st) n1 = Some t1 -> mk_find (s_mk st) n2 = Some t2 ->
  t1 = t2 <-> sameName n1 n2.
Proof.
  intros H H1 H2. destruct (C29_lookup _ _ _ _ _ _ _ _ _ _ _ H) as [L U]. apply L in H1 as (b1 & B1 & S1). apply L in H2 as (b2 & B2 & S2).
  rewrite sameName_norm in S1, S2. rewrite sameName_norm, S1, S2. split.
  - intros <-. rewrite B1 in B2. by injection B2 as <-.
  - intros E. eapply U; [exact B1|exact B2|]. by apply sameName_norm.
Qed.
Example C29_ex : match parseEx (map s2q ["Dir/A.obj: x"; "dir\a.OBJ: y"; "all: dir/a.obj"]%string) with
  | POk st => mk_find (s_mk st) (s2q "DIR/a.Obj") = Some (s2q "dir\a.obj") /\ mk_find (s_mk st) (s2q "dir\A.obj") = Some (s2q "dir\a.obj") /\
      mk_find (s_mk st) (s2q "a.obj") = None /\
      blocks (rst (POk st)) = Some [(s2q "dir\a.obj", [s2q "x"; s2q "y"], []); (s2q "all", [s2q "dir\a.obj"], [])]
  | _ => False
  end.
Proof. by vm_compute. Qed.
(** A dependent with two pairs of double quotes is not found, so a target without the inner quotes is created; a
    target with this name is lost, with its commands. *)
Theorem C29_overwritten_refuted : exists lines st mk' names, parseEx lines = POk st /\
  mk_find (s_mk st) (s2q "a.obj") = Some (s2q "a.obj") /\ option_map (fun b => map c_line (b_cmds b)) (mk_targets (s_mk st) !! (s2q "a.obj" : tid)) = Some [s2q "cl a"] /\
  finishParse (map r_toExt (s_rules st)) (s_suffixes st) (s_rules st) (s_sync st) (s_mk st) [] = Graph.Ok (mk', names) /\
  option_map b_cmds (mk_targets mk' !! (s2q "a.obj" : tid)) = Some [].
Proof.
  set (lines := [s2q ".c.obj:"; s2q " cl"; s2q "all: " ++ [34; 34] ++ s2q "a.obj" ++ [34; 34]; s2q "a.obj: a.c"; s2q " cl a"]).
  assert (E : match parseEx lines with POk st =>
    mk_find (s_mk st) (s2q "a.obj") = Some (s2q "a.obj") /\ option_map (fun b => map c_line (b_cmds b)) (mk_targets (s_mk st) !! (s2q "a.obj" : tid)) = Some [s2q "cl a"] /\
    match finishParse (map r_toExt (s_rules st)) (s_suffixes st) (s_rules st) (s_sync st) (s_mk st) [] with
    | Graph.Ok (mk', names) => option_map b_cmds (mk_targets mk' !! (s2q "a.obj" : tid)) = Some []
    | _ => False end | _ => False end) by (by vm_compute).
  exists lines. destruct (parseEx lines) as [st| | |]; try done. destruct E as (E1 & E2 & E3). exists st.
  destruct (finishParse _ _ _ _ _ _) as [[mk' names]| | | |]; try done. exists mk', names. done.
Qed.

(** ** C30 *)
(** Every list of dependents is one of groups with .SYNC between them. *)
Theorem C30_groups l : exists g gs, l = withSync g gs /\ Forall (fun g => s2q ".SYNC" ∉ g) (g :: gs).
Proof. apply groups_exist. Qed.
(** If every dependent is a target, then in all orders of the hash table a target has afterwards its own
    dependents and those it is to wait for according to some rule, and no others. Missing: dependents that are
    no targets, see below. *)
Theorem C30_sync_partial fuel dir rs mk ser sync sync' : nativeRules rs -> applyRules fuel rs (start dir) = POk (mk, ser, sync) -> sync' ≡ₚ sync ->
  (forall r d, r ∈ rs -> d ∈ pr_deps r -> d <> s2q ".SYNC" -> exists n r', (n, r') ∈ uses (map strip rs) /\ sameName d n) ->
  (forall d, mk_find (applySync sync' mk) d = mk_find mk d) /\
  forall t b, mk_targets mk !! t = Some b -> exists b', mk_targets (applySync sync' mk) !! t = Some b' /\ b_name b' = b_name b /\ b_cmds b' = b_cmds b /\
    forall x, x ∈ b_deps b' <-> x ∈ b_deps b \/
      exists r g gs d, r ∈ rs /\ pr_deps r = withSync g gs /\ Forall (fun g => s2q ".SYNC" ∉ g) (g :: gs) /\ waits g gs d x /\ mk_find mk d = Some t.
Proof.
  intros HN H HP HD. apply applyRules_ok with (us := []) in H as ((W & _ & _ & HU) & _ & HL & HK); [|apply tableFor_empty|done]. cbn [app] in HU.
  assert (HA : Forall (fun p => is_Some (mk_find mk (fst p))) sync').
  { apply Forall_forall. intros [d ds] Hi. cbn [fst]. rewrite HP in Hi.
    assert (Hd : d ∈ keys sync). { apply elem_of_list_In, in_map_iff. exists (d, ds). split; [done|by apply elem_of_list_In]. }
    apply HK in Hd as [Hd|(r & Hr & Hd)]; [by apply elem_of_nil in Hd|]. rewrite syncLoop_keys in Hd. apply elem_of_list_filter in Hd as [Hs Hd].
    destruct (HD r d Hr Hd Hs) as (n & r' & Hu & Hsn). destruct (HU _ _ Hu) as (t & b & Hb & Hnb). exists t. apply find_spec; [done|]. exists b. split; [done|].
    apply sameName_norm. apply sameName_norm in Hsn, Hnb. by rewrite Hsn. }
  split; [intros d; by apply applySync_find|]. intros t b Hb. destruct (applySync_lookup sync' mk t b Hb) as [b' Hb']. exists b'. split; [done|].
  destruct (applySync_in sync' mk HA t b' Hb') as (b0 & H0 & H1 & H2 & H3). rewrite Hb in H0. injection H0 as <-. split_and!; [done|done|].
  intros x. rewrite H3. split.
  - intros [?|(d & Hd & Hl)]; [by left|]. right. rewrite (Permutation_listed _ _ _ _ HP) in Hl. apply HL in Hl as [(e & He & _)|(r & Hr & Hl)]; [by apply elem_of_nil in He|].
    destruct (groups_exist (pr_deps r)) as (g & gs & E & HF). rewrite E in Hl. apply listed_waits in Hl; [|done]. exists r, g, gs, d. done.
  - intros [?|(r & g & gs & d & Hr & E & HF & Hw & Hd)]; [by left|]. right. exists d. split; [done|]. rewrite (Permutation_listed _ _ _ _ HP). apply HL. right.
    exists r. split; [done|]. rewrite E. by apply listed_waits.
Qed.
(** The entries of a list without those that occur before. *)
Inductive firsts : list qstr -> list qstr -> Prop :=
| fi_nil : firsts [] []
| fi_old l l' x : firsts l l' -> x ∈ l -> firsts (l ++ [x]) l'
| fi_new l l' x : firsts l l' -> x ∉ l -> firsts (l ++ [x]) (l' ++ [x]).
Lemma firsts_snoc l x r : firsts (l ++ [x]) r -> (x ∈ l /\ firsts l r) \/ (x ∉ l /\ exists r', r = r' ++ [x] /\ firsts l r').
Proof.
  intros H. inversion H as [E|l0 r0 y H1 H2 E|l0 r0 y H1 H2 E E2].
  - by destruct l.
  - apply app_inj_tail in E as [-> ->]. by left.
  - apply app_inj_tail in E as [-> ->]. right. split; [done|]. by exists r0.
Qed.
Lemma firsts_in l r : firsts l r -> forall x, x ∈ r <-> x ∈ l.
Proof.
  induction 1 as [|l l' y H IH Hy|l l' y H IH Hy]; intros x; [done|..]; rewrite ?elem_of_app, IH, ?elem_of_list_singleton; [|done].
  split; [by left|]. intros [?|E]; [done|by subst].
Qed.
Lemma firsts_nodup l r : firsts l r -> NoDup r.
Proof.
  induction 1 as [|l l' y H IH Hy|l l' y H IH Hy]; [constructor|done|]. apply NoDup_app. split; [done|]. split; [|apply NoDup_singleton].
  intros x Hx ->%elem_of_list_singleton. apply Hy. by apply (firsts_in l l').
Qed.
Lemma firsts_same r : NoDup r -> forall q, firsts r q -> q = r.
Proof.
  induction r as [|x r IH] using rev_ind; intros HN q H.
  - inversion H as [E|l0 r0 y H1 H2 E|l0 r0 y H1 H2 E E2]; [done|by destruct l0..].
  - apply NoDup_app in HN as (HN & Hd & _). apply firsts_snoc in H as [[Hx _]|(_ & r' & -> & H)].
    + exfalso. apply (Hd x Hx). by apply elem_of_list_singleton.
    + by rewrite (IH HN r' H).
Qed.
Lemma firsts_compose a a' m : firsts a a' -> forall r, firsts (a' ++ m) r -> firsts (a ++ m) r.
Proof.
  intros Ha. induction m as [|x m IH] using rev_ind; intros r H.
  - rewrite app_nil_r in *. rewrite (firsts_same a' (firsts_nodup _ _ Ha) r H). done.
  - rewrite app_assoc in *. assert (Hin : x ∈ a' ++ m <-> x ∈ a ++ m) by (rewrite !elem_of_app, (firsts_in a a' Ha); done).
    apply firsts_snoc in H as [[Hx H]|(Hx & r' & -> & H)].
    + apply fi_old; [by apply IH|by apply Hin].
    + apply fi_new; [by apply IH|by rewrite <- Hin].
Qed.
Lemma removeDups_firsts l : firsts l (removeDups l).
Proof.
  assert (G : forall l pre seen, (forall x, x ∈ seen <-> x ∈ pre) -> forall r, firsts pre r -> firsts (pre ++ l) (r ++ removeDupsGo seen l)).
  { clear l. induction l as [|x l IH]; intros pre seen HS r Hr; cbn [removeDupsGo]; [by rewrite !app_nil_r|].
    replace (pre ++ x :: l) with ((pre ++ [x]) ++ l) by (by rewrite <- app_assoc). destruct (containsStr x seen) eqn:E; unfold containsStr in E.
    - assert (Hy : x ∈ seen). { apply existsb_exists in E as (z & Hz & Ez). apply BaseProofs.qeqb_spec in Ez. subst. by apply elem_of_list_In. }
      apply IH; [|apply fi_old; [done|by apply HS]]. intros y. rewrite elem_of_app, elem_of_list_singleton, HS. split; [by left|]. intros [?|Ex]; [done|]. subst y. by apply HS.
    - assert (Hy : x ∉ seen). { intros Hy. apply not_true_iff_false in E. apply E. apply existsb_exists. exists x. split; [by apply elem_of_list_In|by apply BaseProofs.qeqb_spec]. }
      replace (r ++ x :: removeDupsGo (x :: seen) l) with ((r ++ [x]) ++ removeDupsGo (x :: seen) l) by (by rewrite <- app_assoc).
      apply IH; [|apply fi_new; [done|by rewrite <- HS]]. intros y. rewrite elem_of_app, elem_of_cons, elem_of_list_singleton, HS. tauto. }
  exact (G l [] [] (fun x => conj (fun H => H) (fun H => H)) [] fi_nil).
Qed.
(** The dependents a target gets by .SYNC follow its own, and each is there once. *)
Theorem C30_order sync : forall mk t b b', mk_targets mk !! t = Some b -> mk_targets (applySync sync mk) !! t = Some b' ->
  b_deps b' = b_deps b \/ exists more, firsts (b_deps b ++ more) (b_deps b').
Proof.
  induction sync as [|[k ds] sync IH]; intros mk t b b' Hb H; cbn [applySync] in H.
  - left. congruence.
  - destruct (mk_find mk k) as [t0|] eqn:Ef; [|left; congruence]. destruct (mk_targets mk !! t0) as [b0|] eqn:E0; [|left; congruence].
    destruct (decide (t0 = t)) as [->|Hne].
    + rewrite Hb in E0. injection E0 as <-. right.
      destruct (IH _ t (setDeps (removeDups (b_deps b ++ ds)) b) b' ltac:(rewrite setBlock_lookup; by rewrite decide_True) H) as [E|(more & HF)].
      * exists ds. rewrite E. apply removeDups_firsts.
      * exists (ds ++ more). rewrite app_assoc. by apply (firsts_compose _ (removeDups (b_deps b ++ ds))); [apply removeDups_firsts|].
    + apply (IH _ t b b' ltac:(rewrite setBlock_lookup; by rewrite decide_False) H).
Qed.
Print Assumptions C30_order.
(** x has the dependents b and a, is to wait for a and c, and gets c behind them. *)
Definition orderEx : list prule :=
  [rule1 false ["all"] ["a"; "c"; ".SYNC"; "x"] []; rule1 false ["x"] ["b"; "a"] []; rule1 false ["a"; "b"; "c"] [] []]%string.
Example C30_order_ex :
  match applyRules 9 orderEx (start []) with
  | POk (mk, _, sync) => option_map b_deps (mk_targets (applySync sync mk) !! keyOf (s2q "x")) = Some [s2q "b"; s2q "a"; s2q "c"]
  | _ => False
  end.
Proof. by vm_compute. Qed.
Definition syncEx : list prule :=
  [rule1 false ["all"] ["a"; "b"; ".SYNC"; "c"; "d"; ".SYNC"; "e"] []; rule1 false ["a"; "b"; "c"; "d"; "e"] [] []]%string.
Definition depsIn (mk : mkfile) (n : string) : option (list qstr) := option_map b_deps (mk_targets mk !! keyOf (s2q n)).
Example C30_sync_ex :
  match applyRules 9 syncEx (start []) with
  | POk (mk, _, sync) => let mk' := applySync (rev sync) mk in
      depsIn mk' "a" = Some [] /\ depsIn mk' "b" = Some [] /\ depsIn mk' "c" = Some [s2q "a"; s2q "b"] /\ depsIn mk' "d" = Some [s2q "a"; s2q "b"] /\
      depsIn mk' "e" = Some [s2q "c"; s2q "d"]
  | _ => False
  end.
Proof. by vm_compute. Qed.
(** A dependent that is no target, even in a rule without .SYNC, ends the loop; what comes behind it in the hash
    table is lost. *)
Definition lostEx : list prule := [rule1 false ["all"] ["a"; ".SYNC"; "b"] []; rule1 false ["a"] ["a.c"] []; rule1 false ["b"] ["b.c"] []]%string.
Theorem C30_lost_refuted : exists rs mk ser sync s1 s2, nativeRules rs /\ applyRules 9 rs (start []) = POk (mk, ser, sync) /\ s1 ≡ₚ sync /\ s2 ≡ₚ sync /\
  waits [s2q "a"] [[s2q "b"]] (s2q "b") (s2q "a") /\
  depsIn (applySync s1 mk) "b" = Some [s2q "b.c"; s2q "a"] /\ depsIn (applySync s2 mk) "b" = Some [s2q "b.c"].
Proof.
  assert (E : match applyRules 9 lostEx (start []) with
    | POk (mk, ser, sync) => depsIn (applySync sync mk) "b" = Some [s2q "b.c"; s2q "a"] /\ depsIn (applySync (rev sync) mk) "b" = Some [s2q "b.c"]
    | _ => False end) by (by vm_compute).
  exists lostEx. destruct (applyRules 9 lostEx (start [])) as [[[mk ser] sync]| | |]; try done. destruct E as [E1 E2].
  exists mk, ser, sync, sync, (rev sync). split_and!; [|done|done|symmetry; apply Permutation_rev| |done|done].
  - repeat constructor; intros H; repeat (apply elem_of_cons in H as [H|H]; [done|]); by apply elem_of_nil in H.
  - exists 0%nat, [s2q "a"], [s2q "b"]. split_and!; [done|done|by left|by left].
Qed.
(** A file name macro before .SYNC is not expanded in the dependents of what stands behind it. *)
Theorem C30_macro_refuted : match applyRules 9 [Prule false [s2q "all"] [[magicEscape] ++ s2q "@.lib"; s2q ".SYNC"; s2q "b"] []; rule1 false ["b"; "all.lib"]%string [] []] (start []) with
  | POk (mk, ser, sync) => depsIn mk "all" = Some [s2q "all.lib"; s2q "b"] /\ depsIn (applySync (rev sync) mk) "b" = Some [[magicEscape] ++ s2q "@.lib"]
  | _ => False end.
Proof. by vm_compute. Qed.

(** ** C45 *)
(** The first target is the first one named in the makefile, .NOTPARALLEL not counted, and without names in the
    command line this is the one to be built. *)
Theorem C45_first {R} next tab glob isRel n fuel dir silent stop (r : R) st : parseFile next tab glob isRel n fuel dir silent stop r = POk st ->
  exists rs, nativeRules rs /\ applyRules fuel rs (start dir) = POk (s_mk st, s_serial st, s_sync st) /\
  match uses rs with
  | [] => mk_first (s_mk st) = None /\ mk_targets (s_mk st) = ∅
  | (name, _) :: _ => mk_first (s_mk st) = Some (keyOf name) /\ mk_find (s_mk st) name = Some (keyOf name)
  end.
Proof.
  intros H. apply parseFile_rules in H as (rs & HN & H). exists rs. split_and!; [done|exact H|].
  apply applyRules_ok with (us := []) in H as ((W & HF & HB & HU) & _); [|apply tableFor_empty|done]. cbn [app] in *.
  assert (E : map fst (uses (map strip rs)) = map fst (uses rs)).
  { clear. induction rs as [|r rs IH]; [done|]. change (uses (map strip (r :: rs))) with (usesIn (strip r) (pr_targets r) ++ uses (map strip rs)).
    change (uses (r :: rs)) with (usesIn r (pr_targets r) ++ uses rs). rewrite !map_app, IH. f_equal. unfold usesIn. by rewrite !map_map. }
  destruct (uses (map strip rs)) as [|[n1 r1] us], (uses rs) as [|[n2 r2] us'] eqn:Eu; try done.
  - split; [done|]. apply map_empty. intros t. destruct (mk_targets (s_mk st) !! t) as [b|] eqn:Eb; [|done].
    destruct (HB _ _ Eb) as (rs' & Hu & (r0 & rs0 & -> & _) & _). inversion Hu.
  - cbn [map fst] in E. injection E as -> _. split; [done|]. destruct (HU n2 r1) as (t & b & Hb & Hs); [by left|].
    destruct (mk_find (s_mk st) n2) as [t'|] eqn:Ef; [|by assert (mk_find (s_mk st) n2 = Some t) by (apply find_spec; [done|by exists b]); congruence].
    assert (t' = t) as ->. { assert (mk_find (s_mk st) n2 = Some t) by (apply find_spec; [done|by exists b]). congruence. }
    f_equal. destruct (W _ _ Hb) as [-> Hn]. symmetry. apply sameName_lower; [|done|done].
    assert (Hi : (n2, r2) ∈ uses rs) by (rewrite Eu; by left). clear -HN Hi.
    unfold uses in Hi. apply elem_of_list_In, in_flat_map in Hi as (r & Hr & Hi). apply in_map_iff in Hi as (x & [= -> ->] & Hx).
    apply elem_of_list_In, elem_of_list_filter in Hx as [_ Hx]. apply elem_of_list_In in Hr. unfold nativeRules in HN. rewrite Forall_forall in HN.
    specialize (HN _ Hr). rewrite Forall_forall in HN. by apply HN.
Qed.
Theorem C45_default exts sfx rules sync mk mk' names : finishParse exts sfx rules sync mk [] = Graph.Ok (mk', names) ->
  (names = [] /\ mk_targets mk = ∅) \/ exists t b, mk_first mk = Some t /\ mk_targets mk !! t = Some b /\ names = [b_name b].
Proof.
  unfold finishParse. destruct (decide _) as [->|_]; [intros [= <- <-]; by left|]. cbn [existsb]. destruct (mk_first mk) as [t|]; [|done].
  destruct (mk_targets mk !! t) as [b|] eqn:E; [|done]. destruct (checkRoots _ _ _ _ _ _) as [[m d]| | | |]; try done. destruct (resetRoots _ _ _); [|done].
  intros [= <- <-]. right. by exists t, b.
Qed.
Example C45_ex : match parseEx (map s2q [".NOTPARALLEL:"; "Prog.exe lib: a b"; "all: lib"]%string) with
  | POk st => s_serial st = true /\ mk_first (s_mk st) = Some (keyOf (s2q "Prog.exe")) /\ match finishParse [] (s_suffixes st) (s_rules st) (s_sync st) (s_mk st) [] with Graph.Ok (_, names) => names = [s2q "Prog.exe"] | _ => False end
  | _ => False end.
Proof. by vm_compute. Qed.

(** ** C46 *)
(** Parallel execution is disabled by .NOTPARALLEL among the targets of a rule, and by nothing else. *)
Theorem C46_flag {R} next tab glob isRel n fuel dir silent stop (r : R) st : parseFile next tab glob isRel n fuel dir silent stop r = POk st ->
  exists rs, applyRules fuel rs (start dir) = POk (s_mk st, s_serial st, s_sync st) /\ (s_serial st = true <-> exists r, r ∈ rs /\ s2q ".NOTPARALLEL" ∈ pr_targets r).
Proof.
  intros H. apply parseFile_rules in H as (rs & HN & H). exists rs. split; [exact H|].
  apply applyRules_ok with (us := []) in H as (_ & HS & _); [|apply tableFor_empty|done]. rewrite HS. split; [by intros [?|?]|by right].
Qed.
(** The target of this name is no target: it cannot be asked for. *)
Example C46_ex : match parseEx (map s2q ["all: lib"; "lib .NOTPARALLEL : x"]%string) with
  | POk st => s_serial st = true /\ mk_find (s_mk st) (s2q ".NOTPARALLEL") = None /\ mk_find (s_mk st) (s2q "lib") = Some (s2q "lib")
  | _ => False end.
Proof. by vm_compute. Qed.
(** The name counts in capitals only. *)
Theorem C46_case_refuted : match parseEx (map s2q ["all: lib"; ".NotParallel:"]%string) with
  | POk st => s_serial st = false /\ mk_find (s_mk st) (s2q ".NOTPARALLEL") = Some (s2q ".notparallel")
  | _ => False end.
Proof. by vm_compute. Qed.

Print Assumptions C28_rules.
Print Assumptions C28_dependents.
Print Assumptions C28_mixed.
Print Assumptions C28_makefile.
Print Assumptions C29_lookup.
Print Assumptions C29_different.
Print Assumptions C29_overwritten_refuted.
Print Assumptions C30_groups.
Print Assumptions C30_sync_partial.
Print Assumptions C30_lost_refuted.
Print Assumptions C30_macro_refuted.
Print Assumptions C45_first.
Print Assumptions C45_default.
Print Assumptions C46_flag.
Print Assumptions C46_case_refuted.
