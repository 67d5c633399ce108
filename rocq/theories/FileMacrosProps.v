(** C24: file name macros in commands. *)
From Coq Require Import Ascii String.
From stdpp Require Import prelude.
From Verif Require Import Base Data Macro MacroSpec MacroProofs FileMacros FileMacrosSpec FileMacrosProofs.
Local Open Scope N_scope.

(** A command with a place for every invocation, written with the magic character that the macro table puts
    in front of file name macros, becomes the text with the names put in; all other text stays. [fine] says
    which commands this holds for; the refutations below show why. *)
Theorem C24_expansion_partial target deps tm depIdx ps rs fuel :
  fine target (candidates deps depIdx false) tm ps rs -> (List.length ps < fuel)%nat ->
  expandName target deps tm fuel depIdx false (write ps) = Some (FOk (concat rs)).
Proof.
  intros H Hf. apply (expand_fine target deps tm depIdx _ false eq_refl (List.length ps) ps rs [] []); try done. apply not_elem_of_nil.
Qed.

(** A command with a directory, a base name, a substitution and newer dependents, for the target
    o\a.b.obj and the dependents "x y.c" and "z.c". *)
Definition exTarget : qstr := s2q "o\a.b.obj".
Definition exDeps : list qstr := [s2q "x y.c"; s2q "z.c"].
Definition exTm (n : qstr) : N := if bool_decide (n = s2q "z.c") then 9 else 5.
Definition exPieces : list piece :=
  [PText (s2q "cl "); PLong MTarget (Some MDir) None; PText (s2q "\x "); PShort MBase; PText (s2q " ");
   PLong MAll None (Some (s2q ".c", s2q ".obj")); PText (s2q " "); PShort MNewer].
Example C24_expansion_partial_ex :
  fine exTarget (candidates exDeps None false) exTm exPieces
    [s2q "cl "; s2q "o"; s2q "\x "; s2q "o\a.b"; s2q " "; [34] ++ s2q "x y.obj" ++ [34] ++ s2q " z.obj"; s2q " "; [34] ++ s2q "x y.c" ++ [34] ++ s2q " z.c"].
Proof.
  assert (NI : forall (c : N) (l : list N), bool_decide (c ∈ l) = false -> c ∉ l) by (intros c l; apply bool_decide_eq_false).
  assert (OL : forall v, bool_decide (ch " " ∈ v) = false -> bool_decide (9 ∈ v) = false -> onLine v v).
  { intros v H1 H2. apply ol_plain; by apply NI. }
  assert (SB : forall v w, replaceAll (s2q ".c") (s2q ".obj") v = w -> substitutes (Some (s2q ".c", s2q ".obj")) v w).
  { intros v w <-. apply substituted_ok. }
  apply fi_text; [done|by apply NI|done|].
  apply fi_long; [| by apply NI|done|done| | |].
  { eapply (me_long _ _ _ MTarget (Some MDir) None [exTarget] [s2q "o"] [s2q "o"]); [constructor| |by repeat constructor|constructor; by apply OL].
    constructor; [|constructor]. apply (dp_some (s2q "o") (s2q "a.b.obj")). by apply NI. }
  { intros H. inversion H. }
  { done. }
  apply fi_text; [done|by apply NI|done|].
  apply fi_short; [|by apply NI|done| |].
  { eapply (me_short _ _ _ MBase [s2q "o\a.b"]); [|constructor; by apply OL]. constructor. apply (ne_some (s2q "o\a.b") (s2q "obj")). by apply NI. }
  { intros _ t ps' [= <- _]. done. }
  apply fi_text; [done|by apply NI|done|].
  apply fi_long; [|by apply NI|done| | | |].
  { eapply (me_long _ _ _ MAll None (Some (s2q ".c", s2q ".obj")) exDeps exDeps [s2q "x y.obj"; s2q "z.obj"]); [constructor|by repeat constructor| |].
    - constructor; [by apply SB|]. constructor; [by apply SB|constructor].
    - apply (li_more (s2q "x y.obj") ([34] ++ s2q "x y.obj" ++ [34]) (s2q "z.obj") [] (s2q "z.obj")); [|constructor; by apply OL]. apply ol_blank. left. by apply (bool_decide_unpack _). }
  { unfold substClean. split_and!; by apply NI. }
  { intros H. inversion H. }
  { done. }
  apply fi_text; [done|by apply NI|done|].
  apply fi_short; [|by apply NI|done|done|constructor].
  eapply (me_short _ _ _ MNewer exDeps).
  - constructor. constructor; [done|]. constructor; [done|constructor].
  - apply (li_more (s2q "x y.c") ([34] ++ s2q "x y.c" ++ [34]) (s2q "z.c") [] (s2q "z.c")); [|constructor; by apply OL]. apply ol_blank. left. by apply (bool_decide_unpack _).
Qed.
Example C24_expansion_run :
  expandName exTarget exDeps exTm 9 None false (write exPieces)
  = Some (FOk (s2q "cl o\x o\a.b " ++ [34] ++ s2q "x y.obj" ++ [34] ++ s2q " z.obj " ++ [34] ++ s2q "x y.c" ++ [34] ++ s2q " z.c")).
Proof. by vm_compute. Qed.

Definition M : qstr := [magicEscape].
(** In the dependents of a rule the macros for the target are replaced in the same way. *)
Theorem C24_dependents_partial target deps tm ps rs fuel : Forall targetOnly ps -> fine target [] tm ps rs -> (List.length ps < fuel)%nat ->
  expandName target deps tm fuel None true (write ps) = Some (FOk (concat rs)).
Proof.
  intros Ho H Hf. apply (expand_fine target deps tm None _ true eq_refl (List.length ps) ps rs [] []); try done. apply not_elem_of_nil.
Qed.
Example C24_dependents_ex : let ps := [PText (s2q "src\"); PLong MTarget (Some MStem) None; PText (s2q ".c")] in
  Forall targetOnly ps /\ fine (s2q "o\a.obj") [] (fun _ => 0) ps [s2q "src\"; s2q "a"; s2q ".c"] /\
  expandName (s2q "o\a.obj") [] (fun _ => 0) 9 None true (write ps) = Some (FOk (s2q "src\a.c")).
Proof.
  assert (NI : forall (c : N) (l : list N), bool_decide (c ∈ l) = false -> c ∉ l) by (intros c l; apply bool_decide_eq_false).
  cbv zeta. split_and!; [repeat constructor| |by vm_compute]. apply fi_text; [done|by apply NI|done|].
  apply fi_long; [|by apply NI|done|done| |done|].
  - eapply (me_long _ _ _ MTarget (Some MStem) None [s2q "o\a.obj"] [s2q "a"] [s2q "a"]); [constructor| |by repeat constructor|constructor; apply ol_plain; by apply NI].
    constructor; [|constructor]. apply (sm_dot _ (s2q "a") (s2q "obj")); [|by apply NI]. apply (fp_sep (s2q "o") 92 (s2q "a.obj")); [by right|].
    repeat (apply Forall_cons; split; [by intros [H|H]|]). constructor.
  - intros H. inversion H.
  - apply fi_text; [done|by apply NI|done|constructor].
Qed.
(** A macro for the dependents is an error there, wherever it is and whatever follows. *)
Theorem C24_dependents_forbidden target deps tm t m p q fuel : magicEscape ∉ t -> last t <> Some (ch "^") -> ~ ofTarget m ->
  (p = PShort m \/ exists d sub, p = PLong m d sub) -> (0 < fuel)%nat -> expandName target deps tm fuel None true (t ++ writePiece p ++ q) = Some FThrow.
Proof.
  intros Ht Hl Hm Hp Hf. destruct fuel as [|fuel]; [lia|]. unfold expandName. cbn [expandNames].
  assert (E : writePiece p = magicEscape :: drop 1 (writePiece p)) by (destruct Hp as [->|(d & sub & ->)]; done). rewrite E, cut_clean by done. cbn [app cutMagic].
  rewrite N.eqb_refl, app_nil_r. cbn [app]. replace (endsCaret t) with false.
  - by rewrite (forbidden_throws target deps tm None true m p q Hm Hp eq_refl).
  - symmetry. unfold endsCaret. destruct (last t) as [c|]; [|done]. apply N.eqb_neq. intros ->. by apply Hl.
Qed.
Example C24_dependents_forbidden_ex : expandName (s2q "a.obj") [s2q "x"] (fun _ => 0) 9 None true (s2q "src" ++ M ++ s2q "(**D)\b") = Some FThrow /\
  expandName (s2q "a.obj") [s2q "x"] (fun _ => 0) 9 None true (M ++ s2q "?") = Some FThrow.
Proof. by vm_compute. Qed.

(** A command with an exclamation mark becomes one command per dependent, in order, each expanded with this
    dependent alone; the others stay one command. Nothing else changes. *)
Theorem C24_single target deps tm fuel cs r : expandCommands target deps tm fuel cs = Some (FOk r) ->
  exists rss, r = concat rss /\ Forall2 (fun c rs =>
    if c_single c then
      List.length rs = List.length deps /\
      forall i d c', deps !! i = Some d -> rs !! i = Some c' ->
        candidates deps (Some i) false = [d] /\
        expandCommand target deps tm fuel (Some i) (Command (c_line c) (c_inline c) (c_max c) (c_silent c) false) = Some (FOk c') /\
        c_max c' = c_max c /\ c_silent c' = c_silent c /\ c_single c' = false
    else exists c', rs = [c'] /\ expandCommand target deps tm fuel None c = Some (FOk c') /\ c_max c' = c_max c /\ c_silent c' = c_silent c) cs rss.
Proof.
  unfold expandCommands. rewrite collect_ok.
  assert (P : forall i c c', expandCommand target deps tm fuel i c = Some (FOk c') -> c_max c' = c_max c /\ c_silent c' = c_silent c /\ c_single c' = c_single c).
  { intros i c c'. unfold expandCommand. destruct (expandName _ _ _ _ _ _ (c_line c)) as [[l| |]|]; try done.
    destruct (expandFiles _ _ _ _ _ _) as [[l'| |]|]; try done. by intros [= <-]. }
  revert r. induction cs as [|c cs IH]; intros r H.
  { cbn in H. apply Forall2_nil_inv_l in H as ->. by exists []. }
  unfold jobsOf in H. cbn [flat_map] in H. apply Forall2_app_inv_l in H as (r1 & r2 & H1 & H2 & ->).
  destruct (IH _ H2) as (rss & -> & HF). exists (r1 :: rss). split; [done|]. constructor; [|done]. clear -P H1.
  destruct (c_single c) eqn:Es.
  - pose proof (Forall2_length _ _ _ H1) as Hl. rewrite map_length, seq_length in Hl. split; [done|].
    intros i d c' Hd Hc'. assert (Hi : (i < List.length deps)%nat) by (by eapply lookup_lt_Some).
    assert (Hj : map (fun i => (Some i, Command (c_line c) (c_inline c) (c_max c) (c_silent c) false)) (seq 0 (List.length deps)) !! i
      = Some (Some i, Command (c_line c) (c_inline c) (c_max c) (c_silent c) false)).
    { change (map ?f ?l) with (f <$> l). rewrite list_lookup_fmap, lookup_seq_lt by done. reflexivity. }
    pose proof (Forall2_lookup_lr _ _ _ _ _ _ H1 Hj Hc') as H2. clear H1. rename H2 into H1.
    cbn in H1. unfold candidates. rewrite Hd. split; [done|]. split; [exact H1|]. apply P in H1. by destruct H1 as (-> & -> & ->).
  - apply Forall2_cons_inv_l in H1 as (c' & r' & H1 & H2 & ->). apply Forall2_nil_inv_l in H2 as ->. exists c'. split; [done|]. cbn in H1.
    apply P in H1 as Hp. by destruct Hp as (-> & -> & _).
Qed.
Example C24_single_ex :
  expandCommands exTarget exDeps exTm 9 [Command (s2q "copy " ++ [magicEscape] ++ s2q "** d") [] 3 true true]
  = Some (FOk [Command (s2q "copy " ++ [34] ++ s2q "x y.c" ++ [34] ++ s2q " d") [] 3 true false; Command (s2q "copy z.c d") [] 3 true false]).
Proof. by vm_compute. Qed.

(** ** What goes wrong *)
Definition ex1 (s : qstr) : option (fres qstr) := expandName (s2q "t.obj") [] (fun _ => 0) 9 None false s.

(** The form in parentheses without a letter takes the character behind it away. *)
Theorem C24_swallowed_refuted : ex1 (s2q "cl " ++ M ++ s2q "(@) x") = Some (FOk (s2q "cl t.objx")).
Proof. by vm_compute. Qed.
(** A letter or a substitution for an empty list: parts of the invocation stay. *)
Theorem C24_empty_letter_refuted : ex1 (s2q "cl " ++ M ++ s2q "(**D) x") = Some (FOk (s2q "cl ) x")).
Proof. by vm_compute. Qed.
Theorem C24_empty_substitution_refuted : ex1 (s2q "cl " ++ M ++ s2q "(**:a=b) x") = Some (FOk (s2q "cl a=b) x")).
Proof. by vm_compute. Qed.
(** An escaped invocation: the magic character goes to the command line. *)
Theorem C24_escaped_refuted : ex1 (s2q "echo ^" ++ M ++ s2q "@") = Some (FOk (s2q "echo ^" ++ M ++ s2q "@")).
Proof. by vm_compute. Qed.
(** A second invocation right behind one that stands for nothing is not expanded. *)
Theorem C24_adjacent_refuted : ex1 (M ++ s2q "**" ++ M ++ s2q "@") = Some (FOk (M ++ s2q "@")).
Proof. by vm_compute. Qed.
(** The macro for the dependent of an inference rule, elsewhere: its dollar sign vanishes, and the rest reads
    like a redirection. *)
Theorem C24_less_refuted : ex1 (s2q "type " ++ M ++ s2q "< x") = Some (FOk (s2q "type < x")).
Proof. by vm_compute. Qed.
(** An unknown letter leaves the magic character; a wrong one behind D takes the parenthesis' place. *)
Theorem C24_letter_refuted : ex1 (M ++ s2q "(@X)") = Some (FOk (M ++ s2q "(@X)")) /\ ex1 (M ++ s2q "(@RR)") = Some (FOk (s2q "t)")).
Proof. by vm_compute. Qed.
(** A magic character of the makefile itself at the end of a command: an access behind the end. *)
Theorem C24_crash_refuted : ex1 (s2q "echo " ++ M) = Some FCrash.
Proof. by vm_compute. Qed.
(** Only commands with an exclamation mark, no dependents: the list of commands is empty, and its first one
    is used. *)
Theorem C24_no_dependents_refuted : exists cs, cs <> [] /\ startCommands (s2q "t") [] (fun _ => 0) 9 cs = Some FCrash.
Proof. exists [Command (s2q "echo") [] 0 false true]. by vm_compute. Qed.
(** A target whose name has a file name macro in it: its command is expanded for ever. *)
Theorem C24_hang_refuted : exists target cmd, forall fuel, expandName target [] (fun _ => 0) fuel None false cmd = None.
Proof.
  exists (s2q "a" ++ M ++ s2q "@"), (M ++ s2q "@"). unfold expandName.
  assert (G : forall fuel pre, endsCaret pre = false ->
    expandNames (s2q "a" ++ M ++ s2q "@") [] (fun _ => 0) fuel None false pre (M ++ s2q "@") = None).
  { induction fuel as [|fuel IH]; intros pre Hp; [done|].
    cbn [expandNames cutMagic app M s2q String.list_ascii_of_string map]. unfold M. cbn [app cutMagic]. rewrite N.eqb_refl, app_nil_r, Hp.
    change (invocation (s2q "a" ++ [magicEscape] ++ s2q "@") [] (fun _ => 0) (s2q "@") None false) with (FOk (AReplace (s2q "a" ++ M ++ s2q "@"))).
    cbv iota beta. change (take 1 (s2q "a" ++ M ++ s2q "@")) with (s2q "a"). change (drop 1 (s2q "a" ++ M ++ s2q "@")) with (M ++ s2q "@").
    apply IH. apply endsCaret_app; done. }
  intros fuel. by apply G.
Qed.

Print Assumptions C24_expansion_partial.
Print Assumptions C24_dependents_partial.
Print Assumptions C24_dependents_forbidden.
Print Assumptions C24_single.
Print Assumptions C24_swallowed_refuted.
Print Assumptions C24_empty_letter_refuted.
Print Assumptions C24_empty_substitution_refuted.
Print Assumptions C24_escaped_refuted.
Print Assumptions C24_adjacent_refuted.
Print Assumptions C24_less_refuted.
Print Assumptions C24_letter_refuted.
Print Assumptions C24_crash_refuted.
Print Assumptions C24_no_dependents_refuted.
Print Assumptions C24_hang_refuted.
