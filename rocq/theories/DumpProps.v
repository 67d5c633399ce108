(** C39: what /DUMPGRAPH and /DUMPGRAPHDOT print. *)
From Coq Require Import Relations Ascii String.
From stdpp Require Import prelude gmap.
From RecordUpdate Require Import RecordSet.
Import RecordSetNotations.
From Verif Require Import Base Data Infer UpToDate Graph Exec ExecSpec GraphProofs BuildProofs ExecProofs ExecEx Dump DumpSpec DumpProofs.

Lemma apply_dump w o mk names root rest : o_dump o = true -> startable o mk -> requested mk names = Some root :: rest ->
  is_Some (mk_targets mk !! root) /\
  match buildGraph (w (mk_tick mk)) mk emptyGraph root with
  | Ok g => match dumpNode (S (size (g_nodes g))) g 0 root with Some _ => exists s, apply w o mk names = Ok s /\ e_g s = g | None => apply w o mk names = Diverges end
  | Exits c => apply w o mk names = Exits c
  | _ => False
  end.
Proof.
  intros Ho [_ Hf] Hr.
  assert (Hin : is_Some (mk_targets mk !! root)).
  { unfold requested in Hr. destruct names as [|n ns]; [destruct (decide _); [done|]; injection Hr as Hr _; by apply Hf|]. injection Hr as Hr _. by eapply mk_find_in. }
  split; [done|]. pose proof (buildGraph_spec (w (mk_tick mk)) mk emptyGraph root eq_refl eq_refl Hin) as HS.
  assert (G : forall l, newRoot w root (initState o mk l 1) =
    match buildGraph (w (mk_tick mk)) mk emptyGraph root with
    | Ok g => addLog [LRoot root mk] (initState o mk l 1 <| e_g := g |>) <| e_mk ::= fun mk => Mkfile (mk_targets mk) (mk_first mk) (mk_dir mk) (S (mk_tick mk)) |>
    | Exits c => ended (EExit c) (initState o mk l 1)
    | Throws => ended EError (initState o mk l 1 <| e_aborted := true |>)
    | Diverges => ended EDiverge (initState o mk l 1)
    | Crashes => ended ECrash (initState o mk l 1)
    end) by done.
  assert (A : exists l, apply w o mk names = match e_end (newRoot w root (initState o mk l 1)) with
      | Some (EExit c) => Exits c
      | Some EError => Throws
      | Some ECrash => Crashes
      | Some EDiverge => Diverges
      | None => match dumpNode (S (size (g_nodes (e_g (newRoot w root (initState o mk l 1)))))) (e_g (newRoot w root (initState o mk l 1))) 0 root with
                | Some _ => Ok (newRoot w root (initState o mk l 1)) | None => Diverges end
      end).
  { unfold apply. rewrite Ho. unfold requested in Hr. destruct names as [|n ns].
    - destruct (decide _); [done|]. injection Hr as Hr _. rewrite Hr. by exists [].
    - injection Hr as Hr _. rewrite Hr. by exists (map (mk_find mk) ns). }
  destruct A as (l & ->). rewrite G. destruct (buildGraph _ _ _ _) as [g| |c| |]; try done.
  cbn [e_end e_g addLog set]. destruct (dumpNode _ _ _ _); [|done]. eexists. split; done.
Qed.

(** *** C39 *)
Definition withNames (mk : mkfile) (l : list (nat * tid)) : list (nat * qstr) := map (fun p => (fst p, nameIn mk (snd p))) l.
Definition edgeNames (mk : mkfile) (l : list (tid * tid)) : list (qstr * qstr) := map (fun p => (nameIn mk (fst p), nameIn mk (snd p))) l.

(** /DUMPGRAPH prints the requested target, and below every target the ones it depends on, in the order of the makefile and
    indented by one more. So there is a line of depth n for a target if and only if a chain of n dependencies leads to it. Missing:
    jom does not end afterwards (C39_refuted), and only the graph of the first requested target is printed. *)
Theorem C39_lines_partial w o mk names s root rest : o_dump o = true -> startable o mk -> requested mk names = Some root :: rest ->
  apply w o mk names = Ok s -> exists ls, walk mk 0 root ls /\ dumped false mk (e_g s) root = Some (concat (map indented (withNames mk ls))) /\
  forall n t, (n, t) ∈ ls <-> chain mk root n t.
Proof.
  intros Ho Hs Hr Ha. destruct (apply_dump w o mk names root rest Ho Hs Hr) as [Hin H]. rewrite Ha in H.
  destruct (buildGraph _ _ _ _) as [g| | | |] eqn:EB; try done. destruct (buildGraph_order _ _ _ _ Hin EB) as [HB HO].
  destruct (dumpNode _ g 0 root) as [ls|] eqn:Ed; [|done]. destruct H as (s' & [= <-] & <-).
  assert (Hg : inG (e_g s) root) by (apply (bl_in _ _ _ _ HB); by left).
  pose proof (dumpNode_walk _ _ _ _ HB HO _ _ _ _ Hg Ed) as HW. exists ls. split_and!; [done| |].
  - cbn [dumped]. unfold dump. rewrite Ed. f_equal. unfold withNames. rewrite map_map. done.
  - intros n t. rewrite (walk_chains _ _ _ _ HW). cbn. split; [by intros (k & -> & H)|by exists n].
Qed.
(** /DUMPGRAPHDOT prints exactly the dependencies among the targets that are needed for the requested one. Missing: as above. *)
Theorem C39_dot_partial w o mk names s root rest : o_dump o = true -> startable o mk -> requested mk names = Some root :: rest ->
  apply w o mk names = Ok s -> exists es, edgesBelow mk root (kids mk root) es /\ dumped true mk (e_g s) root = Some (digraph (edgeNames mk es)) /\
  forall a b, (a, b) ∈ es <-> neededFor mk root a /\ dependsOn mk a b.
Proof.
  intros Ho Hs Hr Ha. destruct (apply_dump w o mk names root rest Ho Hs Hr) as [Hin H]. rewrite Ha in H.
  destruct (buildGraph _ _ _ _) as [g| | | |] eqn:EB; try done. destruct (buildGraph_order _ _ _ _ Hin EB) as [HB HO].
  destruct (dumpNode _ g 0 root) as [ls|] eqn:Ed; [|done]. destruct H as (s' & [= <-] & <-).
  assert (Hg : inG (e_g s) root) by (apply (bl_in _ _ _ _ HB); by left).
  destruct (dotNode (S (size (g_nodes (e_g s)))) (e_g s) None root) as [es|] eqn:Et; [|by apply (dot_dump _ _ None 0) in Et; congruence].
  destruct (dotNode_edges _ _ _ _ HB HO _ _ _ _ Hg Et) as (es' & HE & ->). exists es'. split_and!; [done| |].
  - cbn [dumped]. unfold dotDump. rewrite Et. unfold digraph, edgeNames. rewrite map_map. done.
  - intros a b. rewrite (edges_in _ _ _ _ HE). unfold neededFor. split.
    + intros [[-> H]|(c & Hc & Hr' & H)]; [split; [by left|by apply kids_in]|]. split; [|done]. right. apply kids_in in Hc.
      destruct Hr' as [->|Hr']; [by apply t1n_step|by eapply Relation_Operators.t1n_trans].
    + intros [[->|Ht] H]; [left; split; [done|by apply kids_in]|]. right. inversion Ht as [y Hy|y z Hy Hz]; subst.
      * exists a. split_and!; [by apply kids_in|by left|done].
      * exists y. split_and!; [by apply kids_in|by right|done].
Qed.
(** The printing ends if and only if no cycle can be reached. *)
Theorem C39_printed w o mk names root rest : o_dump o = true -> startable o mk -> requested mk names = Some root :: rest ->
  ((exists s, apply w o mk names = Ok s) <-> ~ missingDep (w (mk_tick mk)) mk root /\ acyclicFrom mk root) /\
  (apply w o mk names = Exits 2 <-> missingDep (w (mk_tick mk)) mk root).
Proof.
  intros Ho Hs Hr. destruct (apply_dump w o mk names root rest Ho Hs Hr) as [Hin H].
  pose proof (buildGraph_spec (w (mk_tick mk)) mk emptyGraph root eq_refl eq_refl Hin) as HS.
  destruct (buildGraph _ _ _ _) as [g| |c| |] eqn:EB; try done.
  - destruct HS as [_ _]. destruct (buildGraph_order _ _ _ _ Hin EB) as [HB HO]. pose proof (bl_files _ _ _ _ HB) as HF.
    assert (Hg : inG g root) by (apply (bl_in _ _ _ _ HB); by left).
    destruct (dumpNode _ g 0 root) as [ls|] eqn:Ed.
    + destruct H as (s & H & _). rewrite H. split; [|by split]. split; [intros _|by exists s]. split; [done|].
      pose proof (walk_acc _ _ _ _ (dumpNode_walk _ _ _ _ HB HO _ _ _ _ Hg Ed)) as Hacc. intros t [->|Ht]; apply acc_acyclic; [done|by eapply acc_trans].
    + rewrite H. split; [|by split]. split; [by intros (s & ?)|]. intros [_ Ha]. by destruct (dump_ends _ _ _ _ HB HO 0 Ha Hg).
  - destruct HS as [-> HM]. rewrite H. split; [|by split]. split; [by intros (s & ?)|]. by intros [? _].
Qed.

(** The digraph can be read back if no name has a double quote. *)
Lemma quoted_inj (a b x y : list N) : 34%N ∉ a -> 34%N ∉ b -> a ++ 34%N :: x = b ++ 34%N :: y -> a = b /\ x = y.
Proof.
  revert b. induction a as [|c a IH]; intros [|d b] Ha Hb; cbn.
  - by intros [= ->].
  - intros [= <- _]. exfalso. apply Hb. left.
  - intros [= -> _]. exfalso. apply Ha. left.
  - intros [= -> H]. apply IH in H as [-> ->]; [done| |]; intros Hc; [apply Ha|apply Hb]; by right.
Qed.
Definition unquotedNames (e : qstr * qstr) : Prop := 34%N ∉ (fst e : list N) /\ 34%N ∉ (snd e : list N).
Lemma arrow_shape (e : qstr * qstr) : arrow e = 32%N :: 32%N :: 34%N :: (fst e : list N) ++ 34%N :: s2q " -> " ++ 34%N :: (snd e : list N) ++ 34%N :: [59%N; 10%N].
Proof. reflexivity. Qed.
Theorem C39_readable es es' : Forall unquotedNames es -> Forall unquotedNames es' -> digraph es = digraph es' -> es = es'.
Proof.
  unfold digraph. intros H H' E. apply app_inv_head in E. cbn [app] in E. injection E as E. revert es' H' E.
  induction H as [|[a b] es [Ha Hb] _ IH]; intros [|[c d] es'] H'; [done|done|done|]. inversion H' as [|? ? [Hc Hd] H2]; subst. cbn [fst snd] in *.
  cbn [map concat]. rewrite !arrow_shape. cbn [fst snd app]. rewrite <- !app_assoc. intros [= E]. cbn [app] in E.
  apply quoted_inj in E as [-> E]; [|done|done]. injection E as E. rewrite <- !app_assoc in E. cbn [app] in E.
  apply quoted_inj in E as [-> E]; [|done|done]. f_equal. apply IH; [done|]. cbn [app] in E. by injection E.
Qed.

(** all needs a and b, both need c; nothing else is printed for the file src. *)
Definition dumpOpts : bopts := Bopts false false true 1 true.
Example C39_lines_ex :
  startable dumpOpts diamond /\ requested diamond [] = [Some (T "all")] /\ acyclicFrom diamond (T "all") /\
  match apply exW dumpOpts diamond [] with
  | Ok s => dumped false diamond (e_g s) (T "all") = Some (concat (map (fun l => s2q l ++ [10%N]) ["all"; " a"; "  c"; " b"; "  c"]%string)) /\
            dumped true diamond (e_g s) (T "all") = Some (digraph [(T "all", T "a"); (T "a", T "c"); (T "all", T "b"); (T "b", T "c")])
  | _ => False
  end.
Proof.
  assert (Hs : startable dumpOpts diamond). { split; [cbn; lia|]. intros t [= <-]. vm_compute. eauto. }
  split; [done|]. split; [by vm_compute|]. split.
  - apply (C39_printed exW dumpOpts diamond [] (T "all") []); [done|done|by vm_compute|]. eexists. vm_compute. reflexivity.
  - vm_compute. done.
Qed.
Print Assumptions C39_lines_partial.
Print Assumptions C39_dot_partial.
Print Assumptions C39_printed.
Example C39_printed_ex :
  let loop := exMk [exBlock "all" ["a"]%string []; exBlock "a" ["b"]%string []; exBlock "b" ["a"]%string []] in
  startable dumpOpts loop /\ requested loop [] = [Some (T "all")] /\ apply exW dumpOpts loop [] = Diverges /\
  apply exW dumpOpts (exMk [exBlock "all" ["none"]%string []]) [] = Exits 2.
Proof. cbv zeta. split; [split; [cbn; lia|]; intros t [= <-]; vm_compute; eauto|]. by vm_compute. Qed.
Example C39_readable_ex : Forall unquotedNames [(s2q "all", s2q "a b"); (s2q "a b", s2q "c")] /\
  digraph [(s2q "all", s2q "a b")] = s2q "digraph G {" ++ [10%N] ++ s2q "  ""all"" -> ""a b"";" ++ [10%N] ++ s2q "}" ++ [10%N].
Proof. split; [|by vm_compute]. repeat constructor; apply (bool_decide_unpack _); by vm_compute. Qed.
Print Assumptions C39_readable.

(** *** From the command line on *)
From Verif Require Import Macro Opts OptsSpec Main MainSpec MainProofs MainEx.
(** With /DUMPGRAPHDOT on the command line or in MAKEFLAGS main prints the digraph of the makefile that has been read, with
    /DUMPGRAPH alone the lines. Missing: as above. *)
Theorem C39_main_partial u n fuel w b root rest : (0 < u_cpus u)%N -> mainStart u n fuel w = MGoesOn b ->
  requested (pd_mk (bd_parsed b)) (c_targets (bd_cl b)) = Some root :: rest ->
  exists is ms ts, MainSpec.says u is ms ts /\ forall mk, mk = pd_mk (bd_parsed b) ->
  (hasLong LDump is || hasLong LDumpDot is = true ->
   exists text, dumped (o_dumpDot (c_opts (bd_cl b))) mk (e_g (bd_state b)) root = Some text /\
   (hasLong LDumpDot is = true -> exists es, text = digraph (edgeNames mk es) /\ forall x y, (x, y) ∈ es <-> neededFor mk root x /\ dependsOn mk x y) /\
   (hasLong LDumpDot is = false -> exists ls, text = concat (map indented (withNames mk ls)) /\ walk mk 0 root ls /\ forall k t, (k, t) ∈ ls <-> chain mk root k t)).
Proof.
  intros Hc HM Hr. destruct (mainStart_ok _ _ _ _ _ Hc HM) as (is & ms & ts & rs & H1 & H2 & H3 & H4 & H5 & H6 & H7).
  exists is, ms, ts. split; [done|]. intros mk -> Hd. rewrite <- H3 in H7. rewrite H4.
  assert (Ho : Data.o_dump (bd_opts b) = true) by by rewrite H5.
  assert (Ed : o_dumpDot (settings (u_cpus u) is) = hasLong LDumpDot is) by done.
  rewrite Ed. destruct (hasLong LDumpDot is).
  - destruct (C39_dot_partial _ _ _ _ _ _ _ Ho H6 Hr H7) as (es & _ & E & HE). eexists. split; [exact E|]. split; [|done]. intros _. by exists es.
  - destruct (C39_lines_partial _ _ _ _ _ _ _ Ho H6 Hr H7) as (ls & HW & E & HE). eexists. split; [exact E|]. split; [done|]. intros _. by exists ls.
Qed.
Definition dumpMk := ["prog.exe: aa.obj Sub/bb.obj"; "	link"; "AA.obj:"; "	one"; "sub\bb.obj: aa.obj"; "	two"]%string.
Definition printedFor (args : list string) : option qstr :=
  match mainStart (exOut args dumpMk) 200 2000 exNoFiles with
  | MGoesOn b => match requested (pd_mk (bd_parsed b)) (c_targets (bd_cl b)) with
                 | Some root :: _ => dumped (o_dumpDot (c_opts (bd_cl b))) (pd_mk (bd_parsed b)) (e_g (bd_state b)) root
                 | _ => None end
  | _ => None
  end.
Example C39_main_partial_ex :
  printedFor ["/R"; "/DUMPGRAPH"]%string = Some (concat (map (fun l => s2q l ++ [10%N]) ["prog.exe"; " AA.obj"; " sub\bb.obj"; "  AA.obj"]%string)) /\
  printedFor ["/R"; "/DUMPGRAPHDOT"; "sub/bb.obj"]%string = Some (digraph [(s2q "sub\bb.obj", s2q "AA.obj")]).
Proof. split; by vm_compute. Qed.
Print Assumptions C39_main_partial.
