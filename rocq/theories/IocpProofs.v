(** Proofs about the completion port. *)
From stdpp Require Import prelude gmap.
From RecordUpdate Require Import RecordSet.
Import RecordSetNotations.
From Verif Require Import Base Iocp IocpSpec.

Lemma setAt_same {A} c (x : A) f : setAt c x f c = x.
Proof. unfold setAt. by rewrite decide_True. Qed.
Lemma setAt_other {A} c c' (x : A) f : c' <> c -> setAt c x f c' = f c'.
Proof. intros H. unfold setAt. by rewrite decide_False. Qed.
Lemma total_app f a b : total f (a ++ b) = total f a + total f b.
Proof. unfold total. rewrite map_app. apply sum_list_with_app || (induction (map f a); cbn; lia). Qed.
Lemma all_app f a b : all f (a ++ b) = all f a ++ all f b.
Proof. unfold all. by rewrite map_app, concat_app. Qed.

(** ** Who is registered *)
Lemma registered_other t l c : registered t c -> l <> LUnregister c -> l <> LDestroy c -> registered (t ++ [l]) c.
Proof.
  intros (a & b & -> & H1 & H2) N1 N2. exists a, (b ++ [l]). rewrite <- app_assoc. split; [done|]. rewrite !not_elem_of_app, !elem_of_list_singleton. by split_and!; auto.
Qed.
Lemma registered_app t l c : registered t c -> LUnregister c ∉ l -> LDestroy c ∉ l -> registered (t ++ l) c.
Proof.
  intros (a & b & -> & H1 & H2) N1 N2. exists a, (b ++ l). rewrite <- app_assoc. split; [done|]. by rewrite !not_elem_of_app.
Qed.
Lemma run_registered s t : run start t s -> forall c, c ∈ i_obs s -> registered t c.
Proof.
  intros H. remember start as s0 eqn:E0. induction H as [|s0 t s1 l s2 H IH Hs]; [subst; cbn; set_solver|]. specialize (IH E0). intros c Hc.
  assert (K : forall l, (forall x, x ∈ l -> x <> LUnregister c /\ x <> LDestroy c) -> registered t c -> registered (t ++ l) c).
  { intros l' Hl Hr. apply registered_app; [done| |]; intros X; by apply Hl in X as [? ?]. }
  inversion Hs; subst; cbn [i_obs set] in Hc; try (apply K; [intros x Hx; repeat (apply elem_of_cons in Hx as [->|Hx]; [by split|]); by apply elem_of_nil in Hx|by apply IH]).
  - apply elem_of_union in Hc as [Hc|Hc].
    + apply elem_of_singleton in Hc as ->. exists t, []. split_and!; [done|apply not_elem_of_nil|apply not_elem_of_nil].
    + apply K; [|by apply IH]. intros x Hx. apply elem_of_list_singleton in Hx as ->. done.
  - apply elem_of_difference in Hc as [Hc Hn]. rewrite elem_of_singleton in Hn. apply K; [|by apply IH]. intros x Hx. apply elem_of_list_singleton in Hx as ->. split; [congruence|done].
  - apply elem_of_difference in Hc as [Hc Hn]. rewrite elem_of_singleton in Hn. apply K; [|by apply IH]. intros x Hx. apply elem_of_list_singleton in Hx as ->. split; [done|congruence].
Qed.
(** The point of an execution where something happens. *)
Lemma run_split s t : run start t s -> forall a x b, t = a ++ x :: b ->
  exists t0 s0 l1 l2 s1, run start t0 s0 /\ step s0 (l1 ++ x :: l2) s1 /\ a = t0 ++ l1.
Proof.
  intros H. remember start as s0 eqn:E0. induction H as [|s0 t s1 l s2 H IH Hs]; intros a x b E; [by destruct a|].
  specialize (IH E0). destruct (decide (List.length a < List.length t)) as [Hl|Hl].
  - assert (exists b', t = a ++ x :: b') as [b' Eb].
    { assert (E1 : take (List.length t) (a ++ x :: b) = t) by (rewrite <- E; apply take_app). rewrite take_app_ge in E1 by lia.
      destruct (List.length t - List.length a) as [|k] eqn:Ek; [lia|]. cbn [take] in E1. by exists (take k b). }
    by apply (IH a x b').
  - assert (E1 : drop (List.length t) (a ++ x :: b) = l) by (rewrite <- E; apply drop_app). rewrite drop_app_le in E1 by lia.
    assert (E2 : take (List.length t) (a ++ x :: b) = t) by (rewrite <- E; apply take_app). rewrite take_app_le in E2 by lia.
    exists t, s1, (drop (List.length t) a), b, s2. rewrite E1. subst s0. split_and!; [done|done|]. rewrite <- E2 at 1. symmetry. apply take_drop.
Qed.

(** ** Destroyed channels *)
Lemma run_dead s t : run start t s -> forall c, LDestroy c ∈ t -> i_phase s c = PDead /\ c ∉ i_obs s.
Proof.
  intros H. remember start as s0 eqn:E0. induction H as [|s0 t s1 l s2 H IH Hs]; intros c Hc; [by apply elem_of_nil in Hc|]. specialize (IH E0).
  apply elem_of_app in Hc as [Hc|Hc].
  - destruct (IH _ Hc) as [I1 I2].
    inversion Hs; subst; cbn [i_obs i_phase set]; try done;
      try (destruct (decide (c = c0)) as [->|Hn]; [first [congruence|match goal with H : _ \/ _ |- _ => destruct H; congruence end|rewrite setAt_same; split; [done|set_solver]]|rewrite setAt_other by done; split; [done|set_solver]]).
  - inversion Hs; subst; repeat (apply elem_of_cons in Hc as [Hc|Hc]; [try discriminate|]); try (by apply elem_of_nil in Hc). injection Hc as ->.
    cbn [i_obs i_phase set]. rewrite setAt_same. split; [done|set_solver].
Qed.

(** ** Reads under way *)
Definition one (c c' : nat) : nat := if decide (c' = c) then 1 else 0.
Definition sumOf {A} (f : A -> nat) (l : list A) : nat := sum_list (map f l).
Lemma sumOf_app {A} (f : A -> nat) a b : sumOf f (a ++ b) = sumOf f a + sumOf f b.
Proof. unfold sumOf. rewrite map_app. induction (map f a) as [|x l IH]; cbn; [done|]. rewrite IH. lia. Qed.
Lemma sumOf_cons {A} (f : A -> nat) x l : sumOf f (x :: l) = f x + sumOf f l.
Proof. done. Qed.
Lemma sumOf_nil {A} (f : A -> nat) : sumOf f [] = 0.
Proof. done. Qed.
Lemma sumOf_in {A} (f : A -> nat) x l : x ∈ l -> f x <= sumOf f l.
Proof. intros H. apply elem_of_list_split in H as (a & b & ->). rewrite sumOf_app, sumOf_cons. lia. Qed.
Definition pends (c : nat) (s : st) : nat := sumOf (fun p => one c (fst p)) (i_pend s).
Definition waits (c : nat) (s : st) : nat := sumOf (fun p => one c (k_chan p)) (i_queue s).
Lemma one_same c : one c c = 1.
Proof. unfold one. by rewrite decide_True. Qed.
Lemma total_snoc f t l : total f (t ++ l) = total f t + sumOf f l.
Proof. apply sumOf_app. Qed.
Lemma count_run s t : run start t s -> forall c, total (readOf c) t = total (doneOf c) t + pends c s + waits c s.
Proof.
  intros H. remember start as s0 eqn:E0. induction H as [|s0 t s1 l s2 H IH Hs]; intros c; [by subst|]. specialize (IH E0 c). rewrite !total_snoc.
  unfold pends, waits in *.
  destruct Hs; cbn [i_pend i_queue set]; rewrite ?sumOf_app, ?sumOf_cons; cbn [sumOf map sum_list readOf doneOf fst k_chan]; fold (one c c0) || idtac; try fold (one c (k_chan p));
    repeat match goal with E : i_pend _ = _ |- _ => rewrite E, sumOf_app, sumOf_cons in IH; clear E | E : i_queue _ = _ :: _ |- _ => rewrite E, sumOf_cons in IH; clear E end;
    cbn [fst k_chan] in *; unfold sumOf at 1; cbn [map sum_list]; unfold sumOf in *; cbn [map sum_list] in *; try fold (one c c0); lia.
Qed.

(** ** Executions in which nothing is left over *)
Definition lostOf (c r : nat) (l : label) : list N := match l with LIgnored c' r' d => if decide (c' = c /\ r' = r) then d else [] | _ => [] end.
Definition dataOf (c r : nat) (p : packet) : list N := if decide (k_chan p = c /\ k_run p = r) then k_data p else [].
Definition waiting (c r : nat) (s : st) : list N := concat (map (dataOf c r) (i_queue s)).
Definition item (s : st) (c r : nat) : Prop := (c, r) ∈ i_pend s \/ exists p, p ∈ i_queue s /\ k_chan p = c /\ k_run p = r.
Definition over (p : phase) : Prop := p = PUnregistered \/ p = PIdle \/ p = PDead.
Record calm (t : list label) (s : st) : Prop := Calm {
  ca_obs : forall c, c ∈ i_obs s <-> i_phase s c = PRegistered \/ i_phase s c = PReading;
  ca_one : forall c, pends c s + waits c s <= 1;
  ca_zero : forall c, i_phase s c = PRegistered -> pends c s + waits c s = 0;
  ca_run : forall c r, item s c r -> r <= i_run s c;
  ca_cur : forall c r, item s c r -> c ∈ i_obs s -> r = i_run s c;
  ca_piped : forall c r, item s c r -> i_phase s c = PPiped -> r < i_run s c;
  ca_data : forall c r, all (wrote c r) t = all (given c r) t ++ all (lostOf c r) t ++ waiting c r s ++ i_pipe s c r;
  ca_lost : forall c r, all (lostOf c r) t <> [] -> r <= i_run s c /\ (r = i_run s c -> over (i_phase s c));
}.
Lemma item_count s c r : item s c r -> 1 <= pends c s + waits c s.
Proof.
  intros [H|(p & H & E & _)].
  - apply (sumOf_in (fun p => one c (fst p))) in H. cbn in H. rewrite one_same in H. unfold pends. lia.
  - apply (sumOf_in (fun p => one c (k_chan p))) in H. cbn in H. rewrite E, one_same in H. unfold waits. lia.
Qed.
Lemma settled_app t l : settled (t ++ l) -> settled t.
Proof. intros [H1 H2]. split; [intros c Hc; apply (H1 c), elem_of_app; by left|]. intros a c b ->. apply (H2 a c (b ++ l)). by rewrite <- app_assoc. Qed.
Lemma waiting_snoc c r q p : concat (map (dataOf c r) (q ++ [p])) = concat (map (dataOf c r) q) ++ dataOf c r p.
Proof. rewrite map_app, concat_app. cbn. by rewrite app_nil_r. Qed.
Lemma all_nil f l : (forall x, x ∈ l -> f x = []) -> all f l = [].
Proof. intros H. unfold all. induction l as [|x l IH]; [done|]. cbn. rewrite H by left. apply IH. intros y Hy. apply H. by right. Qed.
Lemma all_cons f x l : all f (x :: l) = f x ++ all f l.
Proof. done. Qed.
Lemma all_no f : all f [] = [].
Proof. done. Qed.

Lemma calm_start : calm [] start.
Proof.
  assert (Hi : forall c r, ~ item start c r) by (intros c r [H|(p & H & _)]; by apply elem_of_nil in H).
  split; try done; try (intros c r H; by destruct (Hi _ _ H)).
  - intros c. split; [cbn; set_solver|]. by intros [?|?].
  - intros c. unfold pends, waits. cbn. lia.
Qed.
(** Labels that say nothing about data. *)
Definition dull (l : label) : Prop := match l with LWrite _ _ _ | LNotify _ _ _ _ | LIgnored _ _ _ => False | _ => True end.
Lemma all_dull t l c r : Forall dull l -> all (wrote c r) (t ++ l) = all (wrote c r) t /\ all (given c r) (t ++ l) = all (given c r) t /\ all (lostOf c r) (t ++ l) = all (lostOf c r) t.
Proof.
  intros H. rewrite !all_app. rewrite !(all_nil _ l); [by rewrite !app_nil_r|..]; intros x Hx; rewrite Forall_forall in H; specialize (H _ Hx); by destruct x.
Qed.
(** Steps that change nothing but the phase of a channel and who is registered. *)
Lemma calm_phase t l s s' c : calm t s -> Forall dull l -> i_queue s' = i_queue s -> i_pend s' = i_pend s -> i_run s' = i_run s -> i_pipe s' = i_pipe s ->
  (forall c', c' <> c -> i_phase s' c' = i_phase s c' /\ (c' ∈ i_obs s' <-> c' ∈ i_obs s)) ->
  (c ∈ i_obs s' <-> i_phase s' c = PRegistered \/ i_phase s' c = PReading) ->
  (i_phase s' c = PRegistered \/ i_phase s' c = PReading -> pends c s + waits c s = 0) -> i_phase s' c <> PPiped ->
  (forall r, all (lostOf c r) t <> [] -> r = i_run s c -> over (i_phase s' c)) -> calm (t ++ l) s'.
Proof.
  intros HC Hd Eq Ep Er Ei Ho Hc Hz Hp Hl.
  assert (Ec : forall c', pends c' s' + waits c' s' = pends c' s + waits c' s) by (intros c'; unfold pends, waits; by rewrite Eq, Ep).
  assert (Et : forall c' r, item s' c' r <-> item s c' r) by (intros; unfold item; by rewrite Eq, Ep).
  split.
  - intros c'. destruct (decide (c' = c)) as [->|Hn]; [done|]. destruct (Ho _ Hn) as [-> ->]. apply HC.
  - intros c'. rewrite Ec. apply HC.
  - intros c' H. rewrite Ec. destruct (decide (c' = c)) as [->|Hn]; [apply Hz; by left|]. destruct (Ho _ Hn) as [E _]. rewrite E in H. by apply HC.
  - intros c' r H. apply Et in H. rewrite Er. by apply HC.
  - intros c' r H H2. apply Et in H. rewrite Er. destruct (decide (c' = c)) as [->|Hn].
    + apply Hc, Hz in H2. apply item_count in H. lia.
    + destruct (Ho _ Hn) as [_ E]. apply E in H2. by apply (ca_cur _ _ HC).
  - intros c' r H H2. apply Et in H. rewrite Er. destruct (decide (c' = c)) as [->|Hn]; [done|]. destruct (Ho _ Hn) as [E _]. rewrite E in H2. by apply (ca_piped _ _ HC).
  - intros c' r. destruct (all_dull t l c' r Hd) as (-> & -> & ->). unfold waiting. rewrite Eq, Ei. apply HC.
  - intros c' r. destruct (all_dull t l c' r Hd) as (_ & _ & ->). rewrite Er. intros H. destruct (ca_lost _ _ HC _ _ H) as [A B]. split; [done|].
    intros E. destruct (decide (c' = c)) as [->|Hn]; [by eapply Hl|]. destruct (Ho _ Hn) as [-> _]. by apply B.
Qed.
Ltac dulls := repeat constructor.
Ltac others := intros c' Hn; split; [by rewrite setAt_other|set_solver].
Lemma calm_step t s l s' : run start t s -> calm t s -> settled (t ++ l) -> step s l s' -> calm (t ++ l) s'.
Proof.
  intros HR HC HS Hs. destruct Hs as [s c Hp|s c Hp|s c Hp|s c Hp|s c Hp|s c Hp|s c|s c d Hd Hp|s c r l1 l2 d rest Hl Hi Hd|s c r l1 l2 Hl|s p q Hst Hq Ho Hk|s p q Hst Hq Ho|s p q Hst Hq Ho|s].
  - (* pipe *)
    assert (Hno : c ∉ i_obs s) by (intros H; apply HC in H as [?|?]; congruence).
    split; cbn [i_obs i_phase i_run i_pipe set].
    + intros c'. destruct (decide (c' = c)) as [->|Hn]; [rewrite setAt_same; split; [done|by intros [?|?]]|rewrite setAt_other by done; apply HC].
    + apply HC.
    + intros c' H. destruct (decide (c' = c)) as [->|Hn]; [by rewrite setAt_same in H|]. rewrite setAt_other in H by done. by apply HC.
    + intros c' r H. apply HC in H as H'. destruct (decide (c' = c)) as [->|Hn]; [rewrite setAt_same; lia|by rewrite setAt_other by done].
    + intros c' r H H2. destruct (decide (c' = c)) as [->|Hn]; [done|]. rewrite setAt_other by done. by apply (ca_cur _ _ HC).
    + intros c' r H H2. destruct (decide (c' = c)) as [->|Hn]; [rewrite setAt_same; apply (ca_run _ _ HC) in H; lia|]. rewrite setAt_other in H2 by done. rewrite setAt_other by done. by apply (ca_piped _ _ HC).
    + intros c' r. destruct (all_dull t [LPipe c (S (i_run s c))] c' r) as (-> & -> & ->); [dulls|]. apply HC.
    + intros c' r. destruct (all_dull t [LPipe c (S (i_run s c))] c' r) as (_ & _ & ->); [dulls|]. intros H. destruct (ca_lost _ _ HC _ _ H) as [A B].
      destruct (decide (c' = c)) as [->|Hn]; [rewrite !setAt_same; split; [lia|intros ->; lia]|by rewrite !setAt_other by done].
  - (* register *)
    assert (Hz : pends c s + waits c s = 0).
    { pose proof (count_run _ _ HR c) as E. destruct HS as [_ HS]. specialize (HS t c [] eq_refl). lia. }
    apply (calm_phase t _ s _ c HC); cbn [i_obs i_phase i_run i_pipe i_queue i_pend set]; try done; [dulls|others|rewrite setAt_same; split; [by left|set_solver]|by rewrite setAt_same|].
    intros r H ->. destruct (ca_lost _ _ HC _ _ H) as [_ B]. destruct (B eq_refl) as [B'|[B'|B']]; congruence.
  - (* read *)
    assert (Hz := ca_zero _ _ HC c Hp). assert (Ho : c ∈ i_obs s) by (apply HC; by left).
    assert (Ep : forall c', pends c' (s <| i_pend ::= fun l => l ++ [(c, i_run s c)] |> <| i_phase ::= setAt c PReading |>) = pends c' s + one c' c).
    { intros c'. unfold pends. cbn [i_pend set]. rewrite sumOf_app, sumOf_cons, sumOf_nil. cbn [fst]. lia. }
    assert (Ew : forall c', waits c' (s <| i_pend ::= fun l => l ++ [(c, i_run s c)] |> <| i_phase ::= setAt c PReading |>) = waits c' s) by done.
    assert (Et : forall c' r, item (s <| i_pend ::= fun l => l ++ [(c, i_run s c)] |> <| i_phase ::= setAt c PReading |>) c' r -> item s c' r \/ (c' = c /\ r = i_run s c)).
    { intros c' r [H|H]; [|by left; right]. cbn [i_pend set] in H. apply elem_of_app in H as [H|H]; [by left; left|]. apply elem_of_list_singleton in H as [= -> ->]. by right. }
    split; cbn [i_obs i_phase i_run i_pipe set].
    + intros c'. destruct (decide (c' = c)) as [->|Hn]; [rewrite setAt_same; split; [by right|done]|rewrite setAt_other by done; apply HC].
    + intros c'. rewrite Ep, Ew. unfold one. destruct (decide (c = c')) as [<-|]; [lia|]. pose proof (ca_one _ _ HC c'). lia.
    + intros c' H. destruct (decide (c' = c)) as [->|Hn]; [by rewrite setAt_same in H|]. rewrite setAt_other in H by done. rewrite Ep, Ew. unfold one. rewrite decide_False by done. apply (ca_zero _ _ HC) in H. lia.
    + intros c' r H. apply Et in H as [H|[-> ->]]; [by apply HC|done].
    + intros c' r H H2. apply Et in H as [H|[-> ->]]; [by apply (ca_cur _ _ HC)|done].
    + intros c' r H H2. destruct (decide (c' = c)) as [->|Hn]; [by rewrite setAt_same in H2|]. rewrite setAt_other in H2 by done. apply Et in H as [H|[-> ->]]; [by apply (ca_piped _ _ HC)|done].
    + intros c' r. destruct (all_dull t [LRead c (i_run s c)] c' r) as (-> & -> & ->); [dulls|]. apply HC.
    + intros c' r. destruct (all_dull t [LRead c (i_run s c)] c' r) as (_ & _ & ->); [dulls|]. intros H. destruct (ca_lost _ _ HC _ _ H) as [A B]. split; [done|].
      intros E. specialize (B E). destruct (decide (c' = c)) as [->|Hn]; [destruct B as [B|[B|B]]; congruence|by rewrite setAt_other by done].
  - destruct HS as [HS _]. destruct (HS c). apply elem_of_app. right. left.
  - (* unregister *)
    apply (calm_phase t _ s _ c HC); cbn [i_obs i_phase i_run i_pipe i_queue i_pend set]; try done; [dulls|others|rewrite setAt_same; split; [set_solver|by intros [?|?]]|rewrite setAt_same; by intros [?|?]|by rewrite setAt_same|].
    intros r _ _. rewrite setAt_same. by left.
  - (* idle *)
    assert (Hno : c ∉ i_obs s) by (intros H; apply HC in H as [?|?]; congruence).
    apply (calm_phase t _ s _ c HC); cbn [i_obs i_phase i_run i_pipe i_queue i_pend set]; try done; [others|rewrite setAt_same; split; [done|by intros [?|?]]|rewrite setAt_same; by intros [?|?]|by rewrite setAt_same|].
    intros r _ _. rewrite setAt_same. right. by left.
  - (* destroy *)
    apply (calm_phase t _ s _ c HC); cbn [i_obs i_phase i_run i_pipe i_queue i_pend set]; try done; [dulls|others|rewrite setAt_same; split; [set_solver|by intros [?|?]]|rewrite setAt_same; by intros [?|?]|by rewrite setAt_same|].
    intros r _ _. rewrite setAt_same. right. by right.
  - (* write *)
    split; cbn [i_obs i_phase i_run i_pipe set]; try apply HC.
    + intros c' r. rewrite !all_app. rewrite ?all_cons, ?all_no. cbn [wrote given lostOf]. rewrite ?app_nil_r. rewrite (ca_data _ _ HC c' r). change (waiting c' r (s <| i_pipe ::= _ |>)) with (waiting c' r s).
      destruct (decide (c = c' /\ i_run s c = r)) as [[<- <-]|Hn].
      * rewrite !setAt_same. by rewrite <- !app_assoc.
      * rewrite app_nil_r. do 3 f_equal. destruct (decide (c' = c)) as [->|Hc]; [rewrite setAt_same|by rewrite setAt_other by done]. rewrite setAt_other; [done|]. intros ->. by apply Hn.
    + intros c' r. rewrite all_app, ?all_cons, ?all_no. cbn [lostOf]. rewrite ?app_nil_r. apply HC.
  - (* data *)
    set (s' := s <| i_pend := l1 ++ l2 |> <| i_queue ::= fun q => q ++ [Packet c r d true] |> <| i_pipe ::= setAt c (setAt r rest (i_pipe s c)) |>).
    assert (Ep : forall c', pends c' s' + waits c' s' = pends c' s + waits c' s).
    { intros c'. unfold pends, waits, s'. cbn [i_pend i_queue set]. rewrite Hl, !sumOf_app, !sumOf_cons, !sumOf_nil. cbn [fst k_chan]. lia. }
    assert (Et : forall c' r', item s' c' r' -> item s c' r').
    { assert (G : item s c r) by (left; rewrite Hl; apply elem_of_app; right; left). intros c' r' [H|(p & H & E1 & E2)]; cbn [i_pend i_queue set s'] in H.
      - left. rewrite Hl. apply elem_of_app in H as [H|H]; apply elem_of_app; [by left|]. right. by right.
      - apply elem_of_app in H as [H|H]; [right; by exists p|]. apply elem_of_list_singleton in H as ->. cbn in E1, E2. by subst. }
    split.
    + apply HC.
    + intros c'. rewrite Ep. apply HC.
    + intros c' H. rewrite Ep. by apply HC.
    + intros c' r' H. apply Et in H. by apply (ca_run _ _ HC).
    + intros c' r' H. apply Et in H. by apply (ca_cur _ _ HC).
    + intros c' r' H. apply Et in H. by apply (ca_piped _ _ HC).
    + intros c' r'. destruct (all_dull t [LComplete c r d true] c' r') as (-> & -> & ->); [dulls|]. rewrite (ca_data _ _ HC c' r'). do 2 f_equal.
      unfold waiting, s'. cbn [i_queue i_pipe set]. rewrite waiting_snoc, <- app_assoc. f_equal. unfold dataOf. cbn [k_chan k_run k_data].
      destruct (decide (c = c' /\ r = r')) as [[<- <-]|Hn]; [by rewrite !setAt_same|]. cbn [app]. destruct (decide (c' = c)) as [->|Hc]; [rewrite setAt_same|by rewrite setAt_other by done].
      rewrite setAt_other; [done|]. intros ->. by apply Hn.
    + intros c' r'. destruct (all_dull t [LComplete c r d true] c' r') as (_ & _ & ->); [dulls|]. apply HC.
  - (* error *)
    set (s' := s <| i_pend := l1 ++ l2 |> <| i_queue ::= fun q => q ++ [Packet c r [] false] |>).
    assert (Ep : forall c', pends c' s' + waits c' s' = pends c' s + waits c' s).
    { intros c'. unfold pends, waits, s'. cbn [i_pend i_queue set]. rewrite Hl, !sumOf_app, !sumOf_cons, !sumOf_nil. cbn [fst k_chan]. lia. }
    assert (Et : forall c' r', item s' c' r' -> item s c' r').
    { assert (G : item s c r) by (left; rewrite Hl; apply elem_of_app; right; left). intros c' r' [H|(p & H & E1 & E2)]; cbn [i_pend i_queue set s'] in H.
      - left. rewrite Hl. apply elem_of_app in H as [H|H]; apply elem_of_app; [by left|]. right. by right.
      - apply elem_of_app in H as [H|H]; [right; by exists p|]. apply elem_of_list_singleton in H as ->. cbn in E1, E2. by subst. }
    split.
    + apply HC.
    + intros c'. rewrite Ep. apply HC.
    + intros c' H. rewrite Ep. by apply HC.
    + intros c' r' H. apply Et in H. by apply (ca_run _ _ HC).
    + intros c' r' H. apply Et in H. by apply (ca_cur _ _ HC).
    + intros c' r' H. apply Et in H. by apply (ca_piped _ _ HC).
    + intros c' r'. destruct (all_dull t [LComplete c r [] false] c' r') as (-> & -> & ->); [dulls|]. rewrite (ca_data _ _ HC c' r'). do 2 f_equal.
      unfold waiting, s'. cbn [i_queue i_pipe set]. rewrite waiting_snoc, <- app_assoc. f_equal. unfold dataOf. cbn [k_chan k_run k_data]. by destruct (decide _).
    + intros c' r'. destruct (all_dull t [LComplete c r [] false] c' r') as (_ & _ & ->); [dulls|]. apply HC.
  - (* notified, another read *)
    set (c := k_chan p) in *. assert (Hi : item s c (k_run p)) by (right; exists p; split_and!; [rewrite Hq; left|done|done]).
    assert (Hr : k_run p = i_run s c) by (by apply (ca_cur _ _ HC)).
    assert (Hph : i_phase s c = PReading). { apply HC in Ho as Hx. destruct Hx as [Hx|Hx]; [|done]. apply (ca_zero _ _ HC) in Hx. apply item_count in Hi. lia. }
    set (s' := s <| i_queue := q |> <| i_pend ::= fun l => l ++ [(c, i_run s c)] |>).
    assert (Ep : forall c', pends c' s' + waits c' s' = pends c' s + waits c' s).
    { intros c'. unfold pends, waits, s'. cbn [i_pend i_queue set]. rewrite Hq, sumOf_app, !sumOf_cons, !sumOf_nil. cbn [fst]. fold c. lia. }
    assert (Et : forall c' r', item s' c' r' -> item s c' r').
    { intros c' r' [H|(p' & H & E1 & E2)]; cbn [i_pend i_queue set s'] in H.
      - apply elem_of_app in H as [H|H]; [by left|]. apply elem_of_list_singleton in H as [= -> ->]. by rewrite <- Hr.
      - right. exists p'. split; [rewrite Hq; by right|done]. }
    assert (Hlost : all (lostOf c (k_run p)) t = []).
    { destruct (decide (all (lostOf c (k_run p)) t = [])) as [|Hx]; [done|]. apply (ca_lost _ _ HC) in Hx as [_ Hx]. specialize (Hx Hr). destruct Hx as [Hx|[Hx|Hx]]; congruence. }
    split.
    + apply HC.
    + intros c'. rewrite Ep. apply HC.
    + intros c' H. rewrite Ep. by apply HC.
    + intros c' r' H. apply Et in H. by apply (ca_run _ _ HC).
    + intros c' r' H. apply Et in H. by apply (ca_cur _ _ HC).
    + intros c' r' H. apply Et in H. by apply (ca_piped _ _ HC).
    + intros c' r'. rewrite !all_app. rewrite ?all_cons, ?all_no. cbn [wrote given lostOf]. rewrite ?app_nil_r. rewrite (ca_data _ _ HC c' r').
      unfold waiting, s'. cbn [i_queue i_pipe set]. rewrite Hq. cbn [map concat]. unfold dataOf at 1. fold c.
      destruct (decide (c = c' /\ k_run p = r')) as [[<- <-]|Hn]; [|by rewrite app_nil_r]. rewrite Hlost. by rewrite <- !app_assoc.
    + intros c' r'. rewrite all_app, ?all_cons, ?all_no. cbn [lostOf]. rewrite ?app_nil_r. apply HC.
  - (* notified, no other read *)
    set (c := k_chan p) in *. assert (Hi : item s c (k_run p)) by (right; exists p; split_and!; [rewrite Hq; left|done|done]).
    assert (Hr : k_run p = i_run s c) by (by apply (ca_cur _ _ HC)).
    assert (Hph : i_phase s c = PReading). { apply HC in Ho as Hx. destruct Hx as [Hx|Hx]; [|done]. apply (ca_zero _ _ HC) in Hx. apply item_count in Hi. lia. }
    set (s' := s <| i_queue := q |>).
    assert (Ep : forall c', pends c' s' + waits c' s' <= pends c' s + waits c' s).
    { intros c'. unfold pends, waits, s'. cbn [i_pend i_queue set]. rewrite Hq, sumOf_cons. lia. }
    assert (Et : forall c' r', item s' c' r' -> item s c' r').
    { intros c' r' [H|(p' & H & E1 & E2)]; cbn [i_pend i_queue set s'] in H; [by left|]. right. exists p'. split; [rewrite Hq; by right|done]. }
    assert (Hlost : all (lostOf c (k_run p)) t = []).
    { destruct (decide (all (lostOf c (k_run p)) t = [])) as [|Hx]; [done|]. apply (ca_lost _ _ HC) in Hx as [_ Hx]. specialize (Hx Hr). destruct Hx as [Hx|[Hx|Hx]]; congruence. }
    split.
    + apply HC.
    + intros c'. specialize (Ep c'). pose proof (ca_one _ _ HC c'). lia.
    + intros c' H. specialize (Ep c'). apply (ca_zero _ _ HC) in H. lia.
    + intros c' r' H. apply Et in H. by apply (ca_run _ _ HC).
    + intros c' r' H. apply Et in H. by apply (ca_cur _ _ HC).
    + intros c' r' H. apply Et in H. by apply (ca_piped _ _ HC).
    + intros c' r'. rewrite !all_app. rewrite ?all_cons, ?all_no. cbn [wrote given lostOf]. rewrite ?app_nil_r. rewrite (ca_data _ _ HC c' r').
      unfold waiting, s'. cbn [i_queue i_pipe set]. rewrite Hq. cbn [map concat]. unfold dataOf at 1. fold c.
      destruct (decide (c = c' /\ k_run p = r')) as [[<- <-]|Hn]; [|by rewrite app_nil_r]. rewrite Hlost. by rewrite <- !app_assoc.
    + intros c' r'. rewrite all_app, ?all_cons, ?all_no. cbn [lostOf]. rewrite ?app_nil_r. apply HC.
  - (* ignored *)
    set (c := k_chan p) in *. assert (Hi : item s c (k_run p)) by (right; exists p; split_and!; [rewrite Hq; left|done|done]).
    set (s' := s <| i_queue := q |>).
    assert (Ep : forall c', pends c' s' + waits c' s' <= pends c' s + waits c' s).
    { intros c'. unfold pends, waits, s'. cbn [i_pend i_queue set]. rewrite Hq, sumOf_cons. lia. }
    assert (Et : forall c' r', item s' c' r' -> item s c' r').
    { intros c' r' [H|(p' & H & E1 & E2)]; cbn [i_pend i_queue set s'] in H; [by left|]. right. exists p'. split; [rewrite Hq; by right|done]. }
    split.
    + apply HC.
    + intros c'. specialize (Ep c'). pose proof (ca_one _ _ HC c'). lia.
    + intros c' H. specialize (Ep c'). apply (ca_zero _ _ HC) in H. lia.
    + intros c' r' H. apply Et in H. by apply (ca_run _ _ HC).
    + intros c' r' H. apply Et in H. by apply (ca_cur _ _ HC).
    + intros c' r' H. apply Et in H. by apply (ca_piped _ _ HC).
    + intros c' r'. rewrite !all_app. rewrite ?all_cons, ?all_no. cbn [wrote given lostOf]. rewrite ?app_nil_r. rewrite (ca_data _ _ HC c' r').
      unfold waiting, s'. cbn [i_queue i_pipe set]. rewrite Hq. cbn [map concat]. unfold dataOf at 1. fold c.
      destruct (decide (c = c' /\ k_run p = r')) as [[<- <-]|Hn]; [|by rewrite app_nil_r]. by rewrite <- !app_assoc.
    + intros c' r'. rewrite all_app, ?all_cons, ?all_no. cbn [lostOf]. rewrite ?app_nil_r. intros H.
      destruct (decide (c = c' /\ k_run p = r')) as [[<- <-]|Hn]; [|rewrite app_nil_r in H; by apply HC]. cbn [i_run i_phase set s']. split; [by apply (ca_run _ _ HC)|].
      intros E. destruct (i_phase s c) eqn:Eph; try (by unfold over; auto).
      * apply (ca_piped _ _ HC) in Hi; [lia|done].
      * destruct Ho. apply HC. by left.
      * destruct Ho. apply HC. by right.
  - (* stop *)
    split; cbn [i_obs i_phase i_run i_pipe set]; try apply HC.
    + intros c r. destruct (all_dull t [LStop] c r) as (-> & -> & ->); [dulls|]. apply HC.
    + intros c r. destruct (all_dull t [LStop] c r) as (_ & _ & ->); [dulls|]. apply HC.
Qed.
Lemma calm_run s t : run start t s -> settled t -> calm t s.
Proof.
  intros H. remember start as s0 eqn:E0. induction H as [|s0 t s1 l s2 H IH Hs]; intros HS; [subst; apply calm_start|]. specialize (IH E0). subst s0.
  eapply calm_step; try done. apply IH. by eapply settled_app.
Qed.

(** ** Prefixes *)
Lemma step_read s l s' c : step s l s' -> forall l1 l2, l = l1 ++ l2 -> l2 <> [] -> total (readOf c) l1 = 0.
Proof.
  intros H l1 l2 E Hn. destruct H; destruct l1 as [|x [|y [|z l1]]]; try done; cbn [app] in E; simplify_eq; cbn; done.
Qed.
Lemma prefix_reads t s : run start t s -> settled t -> forall c a b, t = a ++ b -> total (readOf c) a <= total (doneOf c) a + 1.
Proof.
  intros H. remember start as s0 eqn:E0. induction H as [|s0 t s1 l s2 H IH Hs]; intros HS c a b E.
  - symmetry in E. apply app_nil in E as [-> ->]. cbn. lia.
  - specialize (IH E0 (settled_app _ _ HS)). subst s0. apply app_eq_inv in E as [(k & E1 & E2)|(k & E1 & E2)].
    + by eapply IH.
    + destruct b as [|x b].
      * rewrite app_nil_r in E2. subst. pose proof (run_step _ _ _ _ _ H Hs) as H'. pose proof (count_run _ _ H' c). pose proof (ca_one _ _ (calm_run _ _ H' HS) c). lia.
      * subst a. rewrite !total_app. rewrite (step_read _ _ _ c Hs k (x :: b)) by done. specialize (IH c t [] (eq_sym (app_nil_r t))). lia.
Qed.
