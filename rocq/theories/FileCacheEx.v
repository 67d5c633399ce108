(** Concrete builds that look at files through the cache. *)
From Coq Require Import Ascii String.
From stdpp Require Import prelude gmap.
From Verif Require Import Base BaseProofs Data Infer UpToDate Graph Exec ExecSpec ExecFacts ExecEx FileCache.
Local Open Scope N_scope.

Definition files := list (string * N).
Definition asDisk (fs : files) : disk := fun n => option_map snd (List.find (fun p => qeqb (s2q (fst p)) n) fs).
(** The world as it is seen through the cache. *)
Definition tableWorld (tab : list (files * list (string * N))) : world := fun n =>
  let '(fs, c) := nth n tab ([], []) in
  Snap (fun name => fst (fileInfo (asDisk fs) name (list_to_map (map (fun p => (s2q (fst p), snd p)) c)))) (fun _ => false) 100.

Section Check.
Context (tab : list (files * list (string * N))) (o : bopts) (ownB : tid -> qstr -> bool).
Definition ownP (t : tid) (name : qstr) : Prop := ownB t name = true.
Definition tabCache (n : nat) : cache := list_to_map (map (fun p => (s2q (fst p), snd p)) (snd (nth n tab ([], [])))).

Definition runningOf (log : list logev) : list tid :=
  fold_left (fun l e => match e with
                        | LStart t _ => t :: l
                        | LEnd t _ => List.filter (fun x => negb (qeqb x t)) l
                        | _ => l
                        end) log [].
Lemma runningOf_sound log : forall t, t ∈ runningOf log -> underWay log t.
Proof.
  induction log as [|e log IH] using rev_ind; intros t; [by intros ?%elem_of_nil|].
  unfold runningOf. rewrite fold_left_app. cbn. fold (runningOf log).
  assert ((forall f, e <> LEnd t f) -> t ∈ runningOf log -> underWay (log ++ [e]) t) as H.
  { intros He (pre & cmds & post & -> & Hn)%IH. exists pre, cmds, (post ++ [e]). split; [by rewrite <- app_assoc|].
    intros f [?|?%elem_of_list_singleton]%elem_of_app; [by eapply Hn|]. by eapply He. }
  destruct e as [r0 m0|u m0|u m0|u|u cs|u c0|u c0 k0|u f]; try (by apply H).
  - intros [->|Hin]%elem_of_cons; [|by apply H]. exists log, cs, []. split; [done|]. intros f. apply not_elem_of_nil.
  - intros Hin. apply elem_of_list_In, filter_In in Hin as [Hin Hne]. apply elem_of_list_In in Hin. apply H; [|done].
    intros f' [= -> ->]. by rewrite qeqb_refl in Hne.
Qed.
(** Only names for which [p] holds have different times. *)
Definition changesB (p : qstr -> bool) (a b : files) : bool :=
  forallb (fun x => let n := s2q (fst x) in
     match asDisk a n, asDisk b n with
     | Some u, Some v => N.eqb u v
     | None, None => true
     | _, _ => false
     end || p n) (a ++ b).
Lemma asDisk_in fs n v : asDisk fs n = Some v -> exists x, x ∈ fs /\ s2q (fst x) = n.
Proof.
  unfold asDisk. destruct (List.find _ fs) as [x|] eqn:E; [|done]. intros _. apply find_some in E as [H1 H2].
  exists x. split; [by apply elem_of_list_In|]. by apply qeqb_spec in H2.
Qed.
Lemma changesB_sound p a b : changesB p a b = true -> forall name, asDisk b name <> asDisk a name -> p name = true.
Proof.
  intros H name Hne. unfold changesB in H. rewrite forallb_forall in H.
  assert (exists x, x ∈ a ++ b /\ s2q (fst x) = name) as (x & Hx & <-).
  { destruct (asDisk a name) as [v|] eqn:E1.
    - apply asDisk_in in E1 as (x & ? & ?). exists x. split; [apply elem_of_app; by left|done].
    - destruct (asDisk b name) as [v|] eqn:E2; [|done]. apply asDisk_in in E2 as (x & ? & ?). exists x. split; [apply elem_of_app; by right|done]. }
  apply elem_of_list_In in Hx. apply H in Hx. cbv zeta in Hx.
  destruct (asDisk a (s2q (fst x))) as [u|], (asDisk b (s2q (fst x))) as [v|]; cbn in Hx; try done.
  apply orb_true_iff in Hx as [Hx|Hx]; [|done]. apply N.eqb_eq in Hx. subst. done.
Qed.

(** For every observation, the names whose data are asked for. *)
Fixpoint looksB (fs : files) (asks : list (list string)) (c : cache) (n : nat) : option cache :=
  match asks with
  | [] => Some c
  | ns :: asks' =>
    if decide (nth n tab ([], []) = (fs, snd (nth n tab ([], [])))) then
      if decide (tabCache n = c) then looksB fs asks' (consults (asDisk fs) (map s2q ns) c) (S n) else None
    else None
  end.
Lemma looksB_sound P fs asks : forall c n c', looksB fs asks c n = Some c' ->
  looks (tableWorld tab) P c (asDisk fs) n c' (asDisk fs) (n + length asks)%nat.
Proof.
  induction asks as [|ns asks IH]; intros c n c'; cbn -[decide].
  { intros [= <-]. rewrite Nat.add_0_r. constructor. }
  destruct (decide (nth n tab ([], []) = (fs, snd (nth n tab ([], []))))) as [Ef|]; [|done].
  destruct (decide (tabCache n = c)) as [Ec|]; [|done]. intros H%IH.
  replace (n + S (length asks))%nat with (S n + length asks)%nat by lia.
  eapply lk_observe; [|exact H]. intros name. unfold tableWorld. rewrite Ef. cbn. by rewrite <- Ec.
Qed.

(** An event; the files while jom looks at them; what it asks for; the files at the end of the step. *)
Record phase := Phase { ph_ev : event; ph_files : files; ph_asks : list (list string); ph_end : files }.
Definition stepX := step exXp exPrep exKind (tableWorld tab) o.
Fixpoint replay (s : est) (c : cache) (fs : files) (ps : list phase) : option (est * cache * files) :=
  match ps with
  | [] => Some (s, c, fs)
  | p :: ps' =>
    match stepX s (ph_ev p) with
    | None => None
    | Some s1 =>
      let l := drop (length (e_log s)) (e_log s1) in
      let made n := existsb (fun t => ownB t n) (runningOf (e_log s)) in
      let fresh n := existsb (fun e => match e with LStart t _ => ownB t n | _ => false end) l in
      match looksB (ph_files p) (ph_asks p) c (mk_tick (e_mk s)) with
      | None => None
      | Some c1 =>
        if Nat.eqb (mk_tick (e_mk s) + length (ph_asks p)) (mk_tick (e_mk s1))
           && changesB made fs (ph_files p) && changesB (fun n => made n || fresh n) (ph_files p) (ph_end p)
        then replay s1 (clearFinished (e_mk s1) l c1) (ph_end p) ps'
        else None
      end
    end
  end.
Lemma made_sound log n : existsb (fun t => ownB t n) (runningOf log) = true -> beingMade ownP log n.
Proof.
  intros (t & Hin & Ho)%existsb_exists. exists t. split; [|done]. apply runningOf_sound. by apply elem_of_list_In.
Qed.
Lemma replay_sound ps : forall s c fs s' c' fs', replay s c fs ps = Some (s', c', fs') ->
  cachedRun exXp exPrep exKind (tableWorld tab) o ownP s c (asDisk fs) (map ph_ev ps) s' c' (asDisk fs').
Proof.
  induction ps as [|p ps IH]; intros s c fs s' c' fs'; cbn -[Nat.eqb].
  { intros [= <- <- <-]. constructor. }
  destruct (stepX s (ph_ev p)) as [s1|] eqn:Es; [|done].
  destruct (looksB _ _ _ _) as [c1|] eqn:El; [|done].
  destruct (Nat.eqb _ _) eqn:En; [|done]. apply Nat.eqb_eq in En.
  destruct (changesB _ fs (ph_files p)) eqn:E1; [|done]. destruct (changesB _ (ph_files p) (ph_end p)) eqn:E2; [|done].
  cbn [andb]. intros H%IH.
  destruct (grows_step _ _ _ _ _ _ _ _ Es) as [l Hl].
  assert (drop (length (e_log s)) (e_log s1) = l) as Ed by (rewrite Hl; apply drop_app).
  rewrite Ed in H, E2.
  eapply (cr_step _ _ _ _ _ _ _ _ _ _ _ l c1 (asDisk (ph_files p)) (asDisk (ph_end p))); [|intros name Hne|exact H].
  - split_and!; [exact Es|exact Hl|]. eapply (lk_change _ _ _ _ (asDisk (ph_files p))).
    + intros name Hne. apply (changesB_sound _ _ _ E1) in Hne. by apply made_sound.
    + rewrite <- En. by apply looksB_sound.
  - apply (changesB_sound _ _ _ E2) in Hne. apply orb_true_iff in Hne as [Hne|Hne]; [left; by apply made_sound|right].
    apply existsb_exists in Hne as (e & Hin & He). destruct e as [r0 m0|u m0|u m0|u|u cs|u c0|u c0 k0|u f]; try done.
    exists u, cs. split; [by apply elem_of_list_In|done].
Qed.

(** A build, with the files at its beginning and the names asked for when the first graph is built. *)
Definition replayBuild (mk : mkfile) (names : list qstr) (fs0 : files) (asks : list (list string)) (ps : list phase)
  : option (est * cache * files) :=
  match apply (tableWorld tab) o mk names with
  | Ok s0 => match looksB fs0 asks ∅ (mk_tick mk) with
             | Some c1 => if Nat.eqb (mk_tick mk + length asks) (mk_tick (e_mk s0)) then replay s0 c1 fs0 ps else None
             | None => None
             end
  | _ => None
  end.
Lemma replayBuild_sound mk names fs0 asks ps s c fs : replayBuild mk names fs0 asks ps = Some (s, c, fs) ->
  cachedBuild exXp exPrep exKind (tableWorld tab) o ownP mk names (map ph_ev ps) s c (asDisk fs).
Proof.
  unfold replayBuild. destruct (apply _ _ _ _) as [s0| | | |] eqn:Ea; try done.
  destruct (looksB _ _ _ _) as [c1|] eqn:El; [|done]. destruct (Nat.eqb _ _) eqn:En; [|done]. apply Nat.eqb_eq in En.
  intros H. exists s0, (asDisk fs0), c1, (asDisk fs0). split_and!; [done| |by apply replay_sound].
  rewrite <- En. by apply looksB_sound.
Qed.
Lemma replay_one s c fs e fs1 asks s1 c1 : stepX s e = Some s1 ->
  changesB (fun n => existsb (fun t => ownB t n) (runningOf (e_log s))) fs fs1 = true ->
  looksB fs1 asks c (mk_tick (e_mk s)) = Some c1 -> (mk_tick (e_mk s) + length asks)%nat = mk_tick (e_mk s1) ->
  looksAndStep exXp exPrep exKind (tableWorld tab) o ownP s c (asDisk fs) e s1 (drop (length (e_log s)) (e_log s1)) c1 (asDisk fs1).
Proof.
  intros Es E1 El En. destruct (grows_step _ _ _ _ _ _ _ _ Es) as [l Hl]. split_and!; [exact Es| |].
  - rewrite Hl at 2. rewrite drop_app. exact Hl.
  - eapply (lk_change _ _ _ _ (asDisk fs1)).
    + intros name Hne. apply (changesB_sound _ _ _ E1) in Hne. by apply made_sound.
    + rewrite <- En. by apply looksB_sound.
Qed.
End Check.
