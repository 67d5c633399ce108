(** Proofs about wildcards. *)
From Coq Require Import Ascii String.
From stdpp Require Import prelude gmap.
From Verif Require Import Base BaseProofs LineReaderProofs MacroProofs MkParse WildSpec.
Local Open Scope N_scope.

(** ** Where a wildcard is *)
Definition wildIn (w : wstate) (s : list N) : Prop :=
  exists i, wildcardAt s i /\ (w = WDollar -> i <> 0%nat /\ ~ (i = 1%nat /\ s !! 0%nat = Some 40)) /\ (w = WParen -> i <> 0%nat).
Lemma at_cons c (s : list N) i : wildcardAt (c :: s) (S i) <->
  wildcardAt s i /\ (c = magicEscape -> i <> 0%nat /\ ~ (i = 1%nat /\ s !! 0%nat = Some 40)).
Proof.
  unfold wildcardAt. cbn [lookup]. change (ch "(") with 40. split.
  - intros (H1 & H2 & H3). split_and!; try done.
    + intros k ->. by apply (H2 (S k)).
    + intros k ->. by apply (H3 (S k)).
    + intros ->. split; [intros ->; by apply (H2 0%nat)|]. intros [-> E]. by apply (H3 0%nat).
  - intros ((H1 & H2 & H3) & H4). split_and!; try done.
    + intros [|k] E; injection E as ->; cbn [lookup]; [|by apply H2]. intros [= ->]. by destruct (H4 eq_refl).
    + intros [|k] E; injection E as ->; cbn [lookup]; [|by apply H3]. intros [[= ->] E]. destruct (H4 eq_refl) as [_ H5]. by apply H5.
Qed.
Lemma at_zero c (s : list N) : wildcardAt (c :: s) 0%nat <-> c = 42 \/ c = 63.
Proof.
  unfold wildcardAt. cbn. change (ch "*") with 42. change (ch "?") with 63. split.
  - intros ([[= ->]|[= ->]] & _); [by left|by right].
  - intros [-> | ->]; split_and!; try done; (by left) || by right.
Qed.
Lemma wild_iff s : forall w, containsWildcard w s = true <-> wildIn w s.
Proof.
  induction s as [|c s IH]; intros w; cbn [containsWildcard].
  - split; [done|]. by intros (i & [[?|?] _] & _).
  - destruct (c =? magicEscape) eqn:Em.
    + apply N.eqb_eq in Em as ->. rewrite IH. split.
      * intros (i & H1 & H2 & H3). exists (S i). destruct (H2 eq_refl) as [A B]. split_and!; [apply at_cons; by split|by split; [|intros [? ?]]|done].
      * intros ([|i] & H1 & H2 & H3); [apply at_zero in H1 as [?|?]; done|]. apply at_cons in H1 as [H1 H4]. exists i. split_and!; [done|by intros _; apply H4|done].
    + apply N.eqb_neq in Em. destruct w.
      * destruct ((c =? 42) || (c =? 63)) eqn:Ew.
        -- split; [intros _|done]. exists 0%nat. split_and!; [|done|done]. apply at_zero. by apply orb_true_iff in Ew as [E|E]; apply N.eqb_eq in E; [left|right].
        -- apply orb_false_iff in Ew as [E1 E2]. apply N.eqb_neq in E1, E2. rewrite IH. split.
           ++ intros (i & H1 & _). exists (S i). split_and!; [apply at_cons; split; [done|by intros ?]|done|done].
           ++ intros ([|i] & H1 & _); [apply at_zero in H1 as [?|?]; done|]. apply at_cons in H1 as [H1 _]. exists i. by split_and!.
      * rewrite IH. split.
        -- intros (i & H1 & _ & H3). exists (S i). split_and!; [apply at_cons; split; [done|by intros ?]| |done]. intros _. split; [done|].
           intros [[= ->] E]. cbn in E. injection E as ->. cbn in H3. by apply H3.
        -- intros ([|i] & H1 & H2 & _); [by destruct (H2 eq_refl)|]. apply at_cons in H1 as [H1 _]. exists i. split_and!; [done| |].
           ++ by destruct (c =? 40).
           ++ destruct (c =? 40) eqn:E; [|done]. intros _ ->. apply N.eqb_eq in E as ->. destruct (H2 eq_refl) as [_ H]. by apply H.
      * rewrite IH. split.
        -- intros (i & H1 & _). exists (S i). split_and!; [apply at_cons; split; [done|by intros ?]|done|done].
        -- intros ([|i] & H1 & _ & H3); [by destruct (H3 eq_refl)|]. apply at_cons in H1 as [H1 _]. exists i. by split_and!.
Qed.
Lemma contains_iff s : containsWildcard WInitial s = true <-> exists i, wildcardAt s i.
Proof. rewrite wild_iff. split; intros (i & H); exists i; [by destruct H|by split_and!]. Qed.

(** ** Texts *)
Lemma slashes_eq s : fromNative s = slashes s.
Proof. unfold fromNative, replaceChar, slashes. apply map_ext. intros c. change (ch "\") with 92. change (ch "/") with 47. destruct (decide (c = 92)) as [->|H]; [done|]. by apply N.eqb_neq in H as ->. Qed.
Lemma backslashed_eq s : toNative s = backslashed s.
Proof. unfold toNative, replaceChar, backslashed. apply map_ext. intros c. change (ch "\") with 92. change (ch "/") with 47. destruct (decide (c = 47)) as [->|H]; [done|]. by apply N.eqb_neq in H as ->. Qed.
Lemma starts_iff (p s : list N) : startsWith p s = true <-> exists t, s = p ++ t.
Proof.
  revert s. induction p as [|c p IH]; intros s; [split; [by exists s|done]|]. destruct s as [|x s]; cbn [startsWith]; [split; [done|by intros [t ?]]|].
  rewrite andb_true_iff, N.eqb_eq, IH. split; [intros [-> [t ->]]; by exists t|]. intros [t [= -> ->]]. split; [done|by exists t].
Qed.
Lemma ci_starts (p a t : list N) : sameCase a p -> startsWith_ci p (a ++ t) = true.
Proof. intros H. unfold startsWith_ci. apply starts_iff. exists (foldCase t). unfold sameCase, foldCase, qstr, qchar in *. rewrite map_app. by rewrite H. Qed.
Lemma sameCase_length a b : sameCase a b -> List.length a = List.length b.
Proof. intros H. apply (f_equal (@List.length N)) in H. unfold foldCase in H. by rewrite !map_length in H. Qed.
Lemma remove_app (a t : list N) n : n = List.length a -> qremove 0 n (a ++ t) = t.
Proof. intros ->. unfold qremove. cbn [firstn app]. change (drop (List.length a) (a ++ t) = t). apply drop_app. Qed.
Lemma pathOf_app a b n : b <> [] -> pathOf (a ++ b) n = a ++ pathOf b n.
Proof.
  intros H. unfold pathOf. assert (E : last (a ++ b) = last b). { rewrite last_app. destruct (last b) eqn:E; [done|]. by apply last_None in E. }
  rewrite E. destruct (decide _); by rewrite <- app_assoc.
Qed.
Lemma first_slash n t : fileName n -> startsWith [47] (n ++ t) = false.
Proof.
  intros (H1 & H2 & _). destruct n as [|c n]; [done|]. cbn [app startsWith]. rewrite andb_true_r. apply N.eqb_neq. intros <-. apply H2. left.
Qed.

(** ** What a pattern becomes *)
Section expand.
Variables (glob : qstr -> qstr -> list qstr) (isRel : qstr -> bool) (finds : qstr -> qstr -> list qstr).
Hypothesis HG : asked glob finds.
Hypothesis HR : forall s, isRel s = true <-> relative s.
(** The name of a file that is found. *)
Definition shortened (dir f : qstr) : qstr :=
  toNative (if startsWith_ci dir f then let r := qremove 0 (List.length dir) f in if startsWith [47] r then qremove 0 1 r else r else f).
Lemma expand_eq dir s d pat : written s d pat -> (exists i, wildcardAt s i) ->
  expandWildcard glob isRel dir s =
    map (shortened dir) (glob (match d with Some x => if isRel (slashes s) then dir ++ [47] ++ x else x | None => dir end) pat).
Proof.
  intros [Hp Hs] Hw. apply contains_iff in Hw. unfold expandWildcard. rewrite Hw, slashes_eq. change (ch "/") with 47 in *. destruct d as [x|].
  - assert (E : lastIndexOfChar 47 (slashes s) = Some (List.length x)) by (rewrite Hs; by apply lastIndex_app). unfold qstr, qchar in *. rewrite E. clear E.
    assert (E1 : qleft (List.length x) (slashes s) = x) by (rewrite Hs; apply take_app).
    assert (E2 : qremove 0 (S (List.length x)) (slashes s) = pat).
    { rewrite Hs. change (x ++ 47 :: pat) with (x ++ [47] ++ pat). rewrite app_assoc. apply remove_app. rewrite app_length. cbn. lia. }
    unfold qstr, qchar in *. rewrite E1, E2. done.
  - assert (E : lastIndexOfChar 47 (slashes s) = None) by (rewrite Hs; by apply lastIndex_none). unfold qstr, qchar in *. rewrite E, Hs. done.
Qed.
Lemma names_map dir p pat (name : qstr -> qstr) : (forall n, fileName n -> n ∈ finds p pat -> shortened dir (pathOf p n) = backslashed (name n)) ->
  map (shortened dir) (glob p pat) = map (fun n => backslashed (name n)) (finds p pat).
Proof.
  intros H. destruct (HG p pat) as [-> HF]. rewrite map_map. rewrite Forall_forall in HF. apply map_ext_in. intros n Hn. apply elem_of_list_In in Hn. apply H; [by apply HF|done].
Qed.
Lemma short_below dir a t : sameCase a dir -> shortened dir (a ++ 47 :: t) = backslashed t.
Proof.
  intros H. unfold shortened. pose proof (ci_starts dir a (47 :: t) H) as E. unfold qstr, qchar in *. rewrite E. rewrite remove_app by (symmetry; by apply sameCase_length). cbv zeta. cbn [startsWith]. rewrite N.eqb_refl. cbn [andb].
  rewrite (remove_app [47] t) by done. apply backslashed_eq.
Qed.
Lemma short_in dir n : fileName n -> shortened dir (pathOf dir n) = backslashed n.
Proof.
  intros H. unfold pathOf. change (ch "/") with 47. destruct (decide _) as [E|E]; [|by apply short_below].
  unfold shortened. pose proof (ci_starts dir dir n eq_refl) as E'. unfold qstr, qchar in *. rewrite E'. rewrite remove_app by done. cbv zeta. pose proof (first_slash n [] H) as F. rewrite app_nil_r in F. rewrite F. apply backslashed_eq.
Qed.
Lemma short_other dir f : startsWith_ci dir f = false -> shortened dir f = backslashed f.
Proof. intros H. unfold shortened. rewrite H. apply backslashed_eq. Qed.
Lemma expand_here dir s pat : written s None pat -> (exists i, wildcardAt s i) ->
  expandWildcard glob isRel dir s = map backslashed (finds dir pat).
Proof. intros H Hw. rewrite (expand_eq dir s None pat H Hw). rewrite (names_map dir dir pat (fun n => n)); [done|]. intros n Hn _. by apply short_in. Qed.
Lemma expand_relative dir s x pat : written s (Some x) pat -> x <> [] -> (exists i, wildcardAt s i) -> relative (slashes s) ->
  expandWildcard glob isRel dir s = map (fun n => backslashed (pathOf x n)) (finds (dir ++ 47 :: x) pat).
Proof.
  intros H Hx Hw Hr. rewrite (expand_eq dir s (Some x) pat H Hw). apply HR in Hr. rewrite Hr. cbn [app]. apply names_map. intros n Hn _.
  change (dir ++ 47 :: x) with (dir ++ [47] ++ x). rewrite app_assoc, pathOf_app by done. rewrite <- app_assoc. cbn [app]. by apply short_below.
Qed.
Lemma expand_absolute dir s x pat (name : qstr -> qstr) : written s (Some x) pat -> (exists i, wildcardAt s i) -> ~ relative (slashes s) ->
  (forall n, fileName n -> n ∈ finds x pat -> shortened dir (pathOf x n) = backslashed (name n)) ->
  expandWildcard glob isRel dir s = map (fun n => backslashed (name n)) (finds x pat).
Proof.
  intros H Hw Hr Hn. rewrite (expand_eq dir s (Some x) pat H Hw). destruct (isRel (slashes s)) eqn:E; [by apply HR in E|]. by apply names_map.
Qed.
End expand.
