(** C59: wildcards among the dependents. *)
From Coq Require Import Ascii String.
From stdpp Require Import prelude gmap.
From Verif Require Import Base Data UpToDate Graph MkParse MkLineProps WildSpec WildProofs.
Local Open Scope N_scope.

(** A dependent without a wildcard stays as it is; asterisks and question marks of file name macros are no wildcards. *)
Theorem C59_plain glob isRel dir s : (forall i, ~ wildcardAt s i) -> expandWildcard glob isRel dir s = [s].
Proof.
  intros H. unfold expandWildcard. destruct (containsWildcard WInitial s) eqn:E; [|done]. apply contains_iff in E as [i E]. by destruct (H i).
Qed.
Definition wildAtB (s : list N) (i : nat) : bool :=
  match s !! i with Some c => ((c =? 42) || (c =? 63)) | None => false end &&
  match i with S k => negb (bool_decide (s !! k = Some magicEscape)) | O => true end &&
  match i with S (S k) => negb (bool_decide (s !! k = Some magicEscape) && bool_decide (s !! S k = Some 40)) | _ => true end.
Lemma wildAtB_ok (s : list N) i : wildcardAt s i -> wildAtB s i = true.
Proof.
  intros (H1 & H2 & H3). unfold wildAtB, qchar in *. rewrite !andb_true_iff. split_and!.
  - by destruct H1 as [-> | ->].
  - destruct i as [|k]; [done|]. apply negb_true_iff, bool_decide_eq_false. by apply H2.
  - destruct i as [|[|k]]; try done. apply negb_true_iff, not_true_iff_false. rewrite andb_true_iff, !bool_decide_eq_true. by apply H3.
Qed.
Example C59_plain_ex : forall i, ~ wildcardAt ([magicEscape; 40] ++ s2q "*B).c" ++ [magicEscape] ++ s2q "?") i.
Proof.
  intros i H. apply wildAtB_ok in H. destruct (decide (i < 9)%nat) as [Hi|Hi].
  - do 9 (destruct i as [|i]; [by vm_compute in H|]). lia.
  - unfold wildAtB in H. rewrite lookup_ge_None_2 in H by (cbn; lia). done.
Qed.
Print Assumptions C59_plain.

(** A pattern becomes the files that are found, one dependent for each, in their order. A pattern without a directory is looked for
    in the directory of the makefile and becomes the names of the files; a pattern in a directory below the one of the makefile
    becomes the names of the files with the directory before them as it is written. *)
Theorem C59_relative glob isRel finds dir s d pat : asked glob finds -> (forall s, isRel s = true <-> relative s) ->
  written s d pat -> d <> Some [] -> (exists i, wildcardAt s i) -> relative (slashes s) ->
  expandWildcard glob isRel dir s =
    match d with
    | None => map backslashed (finds dir pat)
    | Some x => map (fun n => backslashed (pathOf x n)) (finds (dir ++ ch "/" :: x) pat)
    end.
Proof.
  intros HG HR H Hd Hw Hr. destruct d as [x|].
  - eapply expand_relative; try done. by intros ->.
  - by eapply expand_here.
Qed.
(** The files of the example. *)
Definition findsEx (dir pat : qstr) : list qstr :=
  if qeqb dir (s2q "C:/x/sub/y") && qeqb pat (s2q "f*.c") then [s2q "foo.c"; s2q "f.c"] else
  if qeqb dir (s2q "C:/xy") then [s2q "a.c"] else if qeqb dir (s2q "c:/X/sub") then [s2q "b.c"] else if qeqb dir (s2q "D:/lib") then [s2q "d.lib"] else [].
Definition globEx (dir pat : qstr) : list qstr := map (pathOf dir) (findsEx dir pat).
Definition isRelEx (s : list N) : bool := negb (bool_decide (s !! 0%nat = Some (ch "/"))) && negb (bool_decide (s !! 1%nat = Some (ch ":"))).
Lemma isRelEx_ok (s : list N) : isRelEx s = true <-> relative s.
Proof. unfold isRelEx, relative. rewrite andb_true_iff, !negb_true_iff, !bool_decide_eq_false. done. Qed.
Lemma file_ex n : negb (isEmpty n) && forallb (fun c => negb ((c =? 47) || (c =? 92) || (c =? 58))) n = true -> fileName n.
Proof.
  rewrite andb_true_iff. intros [H1 H2]. rewrite forallb_forall in H2. split; [by intros ->|].
  assert (forall c, c ∈ n -> c <> 47 /\ c <> 92 /\ c <> 58).
  { intros c Hc. apply elem_of_list_In, H2 in Hc. apply negb_true_iff, orb_false_iff in Hc as [Hc H3]. apply orb_false_iff in Hc as [Hc H4]. by apply N.eqb_neq in Hc, H3, H4. }
  split_and!; intros Hc; apply H in Hc; destruct Hc as (? & ? & ?); done.
Qed.
Lemma asked_ex : asked globEx findsEx.
Proof.
  intros dir pat. split; [done|]. unfold findsEx. destruct (_ && _); [|destruct (qeqb _ _); [|destruct (qeqb _ _); [|destruct (qeqb _ _)]]]; repeat constructor; by apply file_ex.
Qed.
Lemma notin_b (c : N) s : forallb (fun x => negb (x =? c)) s = true -> c ∉ s.
Proof. intros H X. rewrite forallb_forall in H. apply elem_of_list_In, H in X. by rewrite N.eqb_refl in X. Qed.
Lemma wild_ex (s : list N) i : (s !! i = Some 42 \/ s !! i = Some 63) -> magicEscape ∉ s -> exists i, wildcardAt s i.
Proof.
  intros H Hn. exists i. split; [done|]. split; [intros k _ E; apply Hn; by eapply elem_of_list_lookup_2|]. intros k _ [E _]. apply Hn. by eapply elem_of_list_lookup_2.
Qed.
Example C59_relative_ex : let s := s2q "sub\y\f*.c" in
  written s (Some (s2q "sub/y")) (s2q "f*.c") /\ (exists i, wildcardAt s i) /\ relative (slashes s) /\
  expandWildcard globEx isRelEx (s2q "C:/x") s = [s2q "sub\y\foo.c"; s2q "sub\y\f.c"].
Proof.
  cbv zeta. split_and!.
  - split; [by apply notin_b|done].
  - apply (wild_ex _ 7); [by left|by apply notin_b].
  - split; done.
  - vm_compute. done.
Qed.
Print Assumptions C59_relative.

(** A pattern in a directory given by its full name: a file below the directory of the makefile gets its name in there, any other
    file its full name. Missing: a directory whose name begins with the one of the makefile (C59_beside_refuted). *)
Theorem C59_absolute_partial glob isRel finds dir s x pat : asked glob finds -> (forall s, isRel s = true <-> relative s) ->
  written s (Some x) pat -> (exists i, wildcardAt s i) -> ~ relative (slashes s) ->
  (forall a y, x = a ++ ch "/" :: y -> y <> [] -> sameCase a dir -> expandWildcard glob isRel dir s = map (fun n => backslashed (pathOf y n)) (finds x pat)) /\
  (last x <> Some (ch "/") -> sameCase x dir -> expandWildcard glob isRel dir s = map backslashed (finds x pat)) /\
  ((forall n a y, n ∈ finds x pat -> pathOf x n = a ++ y -> ~ sameCase a dir) -> expandWildcard glob isRel dir s = map (fun n => backslashed (pathOf x n)) (finds x pat)).
Proof.
  intros HG HR H Hw Hr. split_and!.
  - intros a y -> Hy Ha. eapply (expand_absolute glob isRel finds HG HR); try done. intros n Hn _. change (a ++ ch "/" :: y) with (a ++ [47] ++ y).
    rewrite app_assoc, pathOf_app by done. rewrite <- app_assoc. cbn [app]. by apply short_below.
  - intros Hl Ha. eapply (expand_absolute glob isRel finds HG HR _ _ _ _ (fun n => n)); try done. intros n Hn _. unfold pathOf. rewrite decide_False by done. by apply short_below.
  - intros Ho. eapply (expand_absolute glob isRel finds HG HR); try done. intros n Hn Hf. apply short_other. apply not_true_iff_false. unfold startsWith_ci. rewrite starts_iff.
    intros [t Et]. apply (Ho n (take (List.length dir) (pathOf x n)) (drop (List.length dir) (pathOf x n)) Hf); [symmetry; apply take_drop|]. unfold sameCase, foldCase in *.
    rewrite <- firstn_map. unfold qstr, qchar in *. rewrite Et. rewrite firstn_app, map_length, Nat.sub_diag. cbn [firstn]. rewrite app_nil_r. apply firstn_all2. by rewrite map_length.
Qed.
Example C59_absolute_ex : let s := s2q "c:\X\sub\*.c" in let s' := s2q "D:\lib\?.lib" in
  written s (Some (s2q "c:/X/sub")) (s2q "*.c") /\ (exists i, wildcardAt s i) /\ ~ relative (slashes s) /\ sameCase (s2q "c:/X") (s2q "C:/x") /\
  expandWildcard globEx isRelEx (s2q "C:/x") s = [s2q "sub\b.c"] /\
  written s' (Some (s2q "D:/lib")) (s2q "?.lib") /\ (exists i, wildcardAt s' i) /\ ~ relative (slashes s') /\
  (forall n a y, n ∈ findsEx (s2q "D:/lib") (s2q "?.lib") -> pathOf (s2q "D:/lib") n = a ++ y -> ~ sameCase a (s2q "C:/x")) /\
  expandWildcard globEx isRelEx (s2q "C:/x") s' = [s2q "D:\lib\d.lib"].
Proof.
  cbv zeta. split_and!.
  - split; [by apply notin_b|done].
  - apply (wild_ex _ 9); [by left|by apply notin_b].
  - intros [_ H]. by apply H.
  - by vm_compute.
  - by vm_compute.
  - split; [by apply notin_b|done].
  - apply (wild_ex _ 7); [by right|by apply notin_b].
  - intros [_ H]. by apply H.
  - intros n a y Hn E S. change (findsEx (s2q "D:/lib") (s2q "?.lib")) with [s2q "d.lib"] in Hn. apply elem_of_list_singleton in Hn as ->. destruct a as [|c a]; [by vm_compute in S|].
    change (pathOf (s2q "D:/lib") (s2q "d.lib")) with (68 :: s2q ":/lib/d.lib") in E. injection E as <- _. by vm_compute in S.
  - by vm_compute.
Qed.
Print Assumptions C59_absolute_partial.

(** The makefile is in C:/x and the pattern is for files in C:/xy: the dependent is a file y\a.c that does not exist. *)
Theorem C59_beside_refuted : exists dir s, asked globEx findsEx /\ findsEx (s2q "C:/xy") (s2q "*.c") = [s2q "a.c"] /\
  written s (Some (s2q "C:/xy")) (s2q "*.c") /\ expandWildcard globEx isRelEx dir s = [s2q "y\a.c"].
Proof.
  exists (s2q "C:/x"), (s2q "C:\xy\*.c"). split_and!; [apply asked_ex|by vm_compute|split; [by apply notin_b|done]|by vm_compute].
Qed.
Print Assumptions C59_beside_refuted.

(** A makefile in another directory (jom /F sub\Makefile, started in C:/w): the dependents are named as seen from the directory of the
    makefile but looked for in the current one. The file is found and nevertheless jom ends because it does not exist. *)
Definition globSub (dir pat : qstr) : list qstr := map (pathOf dir) (if qeqb dir (s2q "C:/w/sub") then [s2q "a.c"] else []).
(** The file system as seen from C:/w. *)
Definition snapSub : snap :=
  let here n := qeqb n (s2q "sub\a.c") || qeqb n (s2q "C:\w\sub\a.c") in Snap (fun n => if here n then Some 5 else None) here 9.
Definition readSub (dir : string) : pres (pst (list qstr)) :=
  parseFile listNext (fun _ => ∅) globSub isRelEx 99 99 (s2q dir) false true [s2q "all: *.c"; s2q " cl a.c"].
Theorem C59_other_directory_refuted : exists st b, readSub "C:/w/sub" = POk st /\ mk_targets (s_mk st) !! s2q "all" = Some b /\ b_deps b = [s2q "a.c"] /\
  globSub (s2q "C:/w/sub") (s2q "*.c") = [s2q "C:/w/sub/a.c"] /\ sn_exists snapSub (s2q "sub\a.c") = true /\
  buildGraph snapSub (s_mk st) emptyGraph (s2q "all") = Exits 2.
Proof.
  assert (E : match readSub "C:/w/sub" with
    | POk st => b_deps <$> mk_targets (s_mk st) !! s2q "all" = Some [s2q "a.c"] /\ match buildGraph snapSub (s_mk st) emptyGraph (s2q "all") with Exits c => c = 2 | _ => False end
    | _ => False end) by (vm_compute; done).
  destruct (readSub "C:/w/sub") as [st| | |]; try done. destruct E as [E1 E2]. destruct (mk_targets (s_mk st) !! s2q "all") as [b|] eqn:Eb; [|done]. injection E1 as E1.
  exists st, b. destruct (buildGraph _ _ _ _) as [g| |c| |] eqn:Eg; try done. subst c. split_and!; try done; by vm_compute.
Qed.
Print Assumptions C59_other_directory_refuted.
