(** The automaton of ppexpr-lex.inc recognises the rules of ppexpr.l: derivatives of the rules, and a check by
    computation that they run along with the states. *)
From Coq Require Import Ascii String.
From stdpp Require Import prelude.
From Verif Require Import Base BaseProofs PPExpr PPLex PPLexSpec.
Local Open Scope N_scope.

(** ** Derivatives *)
Fixpoint nullable (r : rx) : bool :=
  match r with
  | REmpty | RSet _ _ => false
  | REps | RStar _ => true
  | RSeq a b => nullable a && nullable b
  | RAlt a b => nullable a || nullable b
  end.
Fixpoint rx_eqb (a b : rx) : bool :=
  match a, b with
  | REmpty, REmpty | REps, REps => true
  | RSet n l, RSet n' l' => Bool.eqb n n' && qeqb l l'
  | RSeq a1 a2, RSeq b1 b2 | RAlt a1 a2, RAlt b1 b2 => rx_eqb a1 b1 && rx_eqb a2 b2
  | RStar a1, RStar b1 => rx_eqb a1 b1
  | _, _ => false
  end.
Definition seq_ (a b : rx) : rx :=
  match a with REmpty => REmpty | REps => b | _ => match b with REmpty => REmpty | _ => RSeq a b end end.
Definition alt_ (a b : rx) : rx :=
  match a with REmpty => b | _ => match b with REmpty => a | _ => if rx_eqb a b then a else RAlt a b end end.
Fixpoint deriv (c : N) (r : rx) : rx :=
  match r with
  | REmpty | REps => REmpty
  | RSet neg l => if xorb neg (containsChar c l) then REps else REmpty
  | RSeq a b => if nullable a then alt_ (seq_ (deriv c a) b) (deriv c b) else seq_ (deriv c a) b
  | RAlt a b => alt_ (deriv c a) (deriv c b)
  | RStar a => seq_ (deriv c a) (RStar a)
  end.

Lemma rx_eqb_eq a b : rx_eqb a b = true -> a = b.
Proof.
  revert b. induction a; intros [] H; cbn in H; try done; rewrite ?andb_true_iff in H.
  - destruct H as [H1 H2]. apply eqb_prop in H1. apply qeqb_spec in H2. congruence.
  - destruct H as [H1 H2]. f_equal; auto.
  - destruct H as [H1 H2]. f_equal; auto.
  - f_equal; auto.
Qed.
Lemma contains_spec c l : containsChar c l = true <-> c ∈ l.
Proof.
  unfold containsChar. rewrite existsb_exists. split.
  - intros (x & Hx & E). apply N.eqb_eq in E as <-. by apply elem_of_list_In.
  - intros H. exists c. split; [by apply elem_of_list_In|apply N.eqb_refl].
Qed.
Lemma not_empty w : ~ matches REmpty w. Proof. intros H; inversion H. Qed.
Lemma seq_inv a b w : matches (RSeq a b) w <-> exists u v, w = u ++ v /\ matches a u /\ matches b v.
Proof.
  split; [intros H; inversion H; subst; eauto|]. intros (u & v & -> & ? & ?). by constructor.
Qed.
Lemma alt_inv a b w : matches (RAlt a b) w <-> matches a w \/ matches b w.
Proof. split; [intros H; inversion H; subst; eauto|]. intros [?|?]; [by apply m_left|by apply m_right]. Qed.
Lemma eps_inv w : matches REps w <-> w = [].
Proof. split; [by inversion 1|intros ->; constructor]. Qed.
Lemma set_inv neg l w : matches (RSet neg l) w <-> exists c, w = [c] /\ xorb neg (containsChar c l) = true.
Proof.
  split.
  - intros H; inversion H as [| ? c Hc | ? c Hc | | | | |]; subst; exists c; (split; [done|]).
    + apply contains_spec in Hc. by rewrite Hc.
    + destruct (containsChar c l) eqn:E; [by apply contains_spec in E|done].
  - intros (c & -> & E). destruct neg; cbn in E.
    + apply m_out. intros Hc. apply contains_spec in Hc. by rewrite Hc in E.
    + apply m_in. apply contains_spec. by destruct (containsChar c l).
Qed.
Lemma seq__spec a b w : matches (seq_ a b) w <-> matches (RSeq a b) w.
Proof.
  rewrite seq_inv.
  assert (matches REmpty w <-> exists u v, w = u ++ v /\ matches a u /\ matches REmpty v) as HE.
  { split; [by intros H%not_empty|]. by intros (? & ? & _ & _ & H%not_empty). }
  destruct a; try (destruct b; [exact HE|rewrite <- seq_inv; done..]).
  - split; [by intros H%not_empty|]. by intros (? & ? & _ & H%not_empty & _).
  - cbn. split; [|by intros (u & v & -> & ->%eps_inv & H)]. intros H. exists [], w. by rewrite eps_inv.
Qed.
Lemma alt__spec a b w : matches (alt_ a b) w <-> matches (RAlt a b) w.
Proof.
  rewrite alt_inv. pose proof (not_empty w) as HE.
  assert (matches (if rx_eqb a b then a else RAlt a b) w <-> matches a w \/ matches b w) as HG.
  { destruct (rx_eqb a b) eqn:E; [apply rx_eqb_eq in E as ->; naive_solver|apply alt_inv]. }
  unfold alt_. destruct a; [naive_solver| | | | |]; destruct b; first [exact HG|naive_solver].
Qed.
Lemma nullable_spec r : nullable r = true <-> matches r [].
Proof.
  induction r; cbn.
  - split; [done|by intros H%not_empty].
  - split; [intros; constructor|done].
  - split; [done|]. intros (c & H & _)%set_inv. done.
  - rewrite andb_true_iff, IHr1, IHr2, seq_inv. split.
    + intros [H1 H2]. exists [], []. done.
    + intros (u & v & E & H1 & H2). symmetry in E. by apply app_nil in E as [-> ->].
  - by rewrite orb_true_iff, IHr1, IHr2, alt_inv.
  - split; [intros; constructor|done].
Qed.
Lemma star_cons a c w : matches (RStar a) (c :: w) <-> exists u v, w = u ++ v /\ matches a (c :: u) /\ matches (RStar a) v.
Proof.
  split.
  - intros H. remember (RStar a) as r. remember (c :: w) as x. revert c w Heqx. induction H as [| | | | | | |a0 u v Hu _ Hv IH]; intros d w E; try done.
    injection Heqr as ->. destruct u as [|e u].
    + apply (IH eq_refl d w E).
    + injection E as -> <-. exists u, v. done.
  - intros (u & v & -> & Hu & Hv). by apply (m_star a (c :: u) v).
Qed.
Lemma deriv_spec c r w : matches (deriv c r) w <-> matches r (c :: w).
Proof.
  revert w. induction r; intros w; cbn.
  - split; by intros H%not_empty.
  - split; [by intros H%not_empty|]. by intros H%eps_inv.
  - rewrite set_inv. destruct (xorb neg (containsChar c l)) eqn:E.
    + rewrite eps_inv. split; [intros ->; by exists c|]. by intros (d & [= _ ->] & _).
    + split; [by intros H%not_empty|]. intros (d & [= <- ->] & H). congruence.
  - assert (matches (RSeq r1 r2) (c :: w) <-> (exists u v, w = u ++ v /\ matches r1 (c :: u) /\ matches r2 v) \/ (matches r1 [] /\ matches r2 (c :: w))) as HH.
    { rewrite seq_inv. split.
      - intros ([|d u] & v & E & H1 & H2); [cbn in E; subst; by right|]. injection E as <- ->. left. by exists u, v.
      - intros [(u & v & -> & H1 & H2)|[H1 H2]]; [by exists (c :: u), v|by exists [], (c :: w)]. }
    rewrite HH. assert (matches (seq_ (deriv c r1) r2) w <-> exists u v, w = u ++ v /\ matches r1 (c :: u) /\ matches r2 v) as H1.
    { rewrite seq__spec, seq_inv. setoid_rewrite IHr1. done. }
    destruct (nullable r1) eqn:E.
    + rewrite alt__spec, alt_inv, H1, IHr2. apply nullable_spec in E. naive_solver.
    + rewrite H1. split; [naive_solver|]. intros [H|[H _]]; [done|]. apply nullable_spec in H. congruence.
  - by rewrite alt__spec, !alt_inv, IHr1, IHr2.
  - rewrite seq__spec, seq_inv, star_cons. setoid_rewrite IHr. done.
Qed.

(** ** Vectors of rules *)
Definition vec := list (Z * rx).
Definition isREmpty (r : rx) : bool := match r with REmpty => true | _ => false end.
Fixpoint dvec (c : N) (v : vec) : vec :=
  match v with
  | [] => []
  | (k, r) :: v' => let r' := deriv c r in if isREmpty r' then dvec c v' else (k, r') :: dvec c v'
  end.
Fixpoint accOf (v : vec) : option Z :=
  match v with [] => None | (k, r) :: v' => if nullable r then Some k else accOf v' end.
Fixpoint vec_eqb (a b : vec) : bool :=
  match a, b with
  | [], [] => true
  | (k, r) :: a', (k', r') :: b' => (k =? k')%Z && rx_eqb r r' && vec_eqb a' b'
  | _, _ => false
  end.
Lemma vec_eqb_eq a b : vec_eqb a b = true -> a = b.
Proof.
  revert b. induction a as [|[k r] a IH]; intros [|[k' r'] b] H; cbn in H; try done.
  rewrite !andb_true_iff in H. destruct H as [[H1 H2] H3]. apply Z.eqb_eq in H1. apply rx_eqb_eq in H2. apply IH in H3. congruence.
Qed.
Lemma firstRule_nil v k : firstRule [] v k <-> accOf v = Some k.
Proof.
  induction v as [|[k' r] v IH]; cbn; [split; [inversion 1|done]|]. destruct (nullable r) eqn:E.
  - apply nullable_spec in E. split; [inversion 1; subst; by try done|]. intros [= ->]. by constructor.
  - rewrite <- IH. assert (~ matches r []) as Hn by (rewrite <- nullable_spec; congruence).
    split; [inversion 1; subst; done|]. intros H. by constructor.
Qed.
Lemma firstRule_cons c w v k : firstRule (c :: w) v k <-> firstRule w (dvec c v) k.
Proof.
  induction v as [|[k' r] v IH]; cbn; [split; inversion 1|].
  pose proof (deriv_spec c r w) as HD. destruct (isREmpty (deriv c r)) eqn:E.
  - destruct (deriv c r); try done. rewrite <- IH. pose proof (not_empty w).
    split; [inversion 1; subst; naive_solver|]. intros H'. apply fr_later; [naive_solver|done].
  - split; inversion 1; subst; [apply fr_here|apply fr_later|apply fr_here|apply fr_later]; naive_solver.
Qed.
Lemma any_firstRule w v : (exists k r, (k, r) ∈ v /\ matches r w) <-> exists k, firstRule w v k.
Proof.
  revert v. induction w as [|c w IH]; intros v.
  - induction v as [|[k r] v IHv]; [split; [intros (? & ? & ?%elem_of_nil & _); done|intros (? & H); inversion H]|].
    destruct (decide (nullable r = true)) as [E|E]; rewrite nullable_spec in E.
    + split; intros _; [exists k; by constructor|exists k, r; split; [left|done]].
    + split.
      * intros (k' & r' & [[= -> ->]|H]%elem_of_cons & Hm); [done|]. destruct IHv as [IHv _].
        destruct IHv as (k2 & H2); [eauto|]. exists k2. by constructor.
      * intros (k' & H). inversion H; subst; [done|]. destruct IHv as [_ IHv]. destruct IHv as (k2 & r2 & H2 & H3); [eauto|].
        exists k2, r2. split; [by right|done].
  - setoid_rewrite firstRule_cons. rewrite <- IH. split.
    + intros (k & r & H & Hm). exists k, (deriv c r). split; [|by apply deriv_spec].
      apply deriv_spec in Hm. clear IH. induction v as [|[k' r'] v IHv]; [by apply elem_of_nil in H|].
      cbn. apply elem_of_cons in H as [[= -> ->]|H].
      * destruct (deriv c r'); [by apply not_empty in Hm|left..].
      * destruct (isREmpty (deriv c r')); [by apply IHv|right; by apply IHv].
    + intros (k & r & H & Hm). clear IH. induction v as [|[k' r'] v IHv]; [by apply elem_of_nil in H|].
      cbn in H. assert ((k, r) = (k', deriv c r') \/ (k, r) ∈ dvec c v) as [[= -> ->]|H'].
      { destruct (isREmpty (deriv c r')); [by right|]. by apply elem_of_cons in H. }
      * exists k', r'. split; [left|by apply deriv_spec].
      * destruct (IHv H') as (k2 & r2 & H2 & H3). exists k2, r2. split; [by right|done].
Qed.
Lemma firstRule_det w v k k' : firstRule w v k -> firstRule w v k' -> k = k'.
Proof. intros H. induction H; intros H'; inversion H'; subst; auto; done. Qed.

(** The longest match, as a function. *)
Fixpoint longest (v : vec) (text : list N) : option (Z * nat) :=
  match text with
  | [] => option_map (fun k => (k, O)) (accOf v)
  | c :: r => match longest (dvec c v) r with
              | Some (k, n) => Some (k, S n)
              | None => option_map (fun k => (k, O)) (accOf v)
              end
  end.
Lemma longest_spec v text : match longest v text with
  | Some (k, n) => (n <= length text)%nat /\ firstRule (firstn n text) v k
                   /\ forall m k', (n < m)%nat -> (m <= length text)%nat -> ~ firstRule (firstn m text) v k'
  | None => forall m k', (m <= length text)%nat -> ~ firstRule (firstn m text) v k'
  end.
Proof.
  revert v. induction text as [|c text IH]; intros v; cbn.
  - destruct (accOf v) as [k|] eqn:E; cbn.
    + split; [lia|]. split; [by apply firstRule_nil|]. intros m k' ? ?; lia.
    + intros m k' Hm. rewrite firstn_nil, firstRule_nil. congruence.
  - specialize (IH (dvec c v)). destruct (longest (dvec c v) text) as [[k n]|].
    + destruct IH as (H1 & H2 & H3). split; [lia|]. split; [by apply firstRule_cons|].
      intros [|m] k' ? ?; [lia|]. cbn. rewrite firstRule_cons. apply H3; lia.
    + destruct (accOf v) as [k|] eqn:E; cbn.
      * split; [lia|]. split; [by apply firstRule_nil|]. intros [|m] k' ? ?; [lia|]. cbn. rewrite firstRule_cons. apply IH; lia.
      * intros [|m] k' ?; cbn; [rewrite firstRule_nil; congruence|]. rewrite firstRule_cons. apply IH; lia.
Qed.

(** ** The states run along with the vectors *)
Definition allBytes : list N := map N.of_nat (List.seq 1 255).
Definition pairIn (R : list (Z * vec)) (s : Z) (v : vec) : bool := existsb (fun '(s', v') => (s =? s')%Z && vec_eqb v v') R.
Definition stepOk (R : list (Z * vec)) (s : Z) (v : vec) (c : N) : bool :=
  match next s c with
  | Some s' => if (s' =? 85)%Z then match dvec c v with [] => true | _ => false end else pairIn R s' (dvec c v)
  | None => false
  end.
Definition accOk (s : Z) (v : vec) : bool :=
  match at_ yy_accept s, accOf v with
  | Some a, Some k => (a =? k)%Z && negb (k =? 0)%Z
  | Some a, None => (a =? 0)%Z
  | None, _ => false
  end.
Definition closed (R : list (Z * vec)) : bool :=
  forallb (fun '(s, v) => accOk s v && forallb (stepOk R s v) allBytes) R.
Fixpoint explore (fuel : nat) (todo R : list (Z * vec)) : list (Z * vec) :=
  match fuel, todo with
  | S fuel', (s, v) :: todo' =>
    if pairIn R s v then explore fuel' todo' R
    else explore fuel' (omap (fun c => match next s c with
                                       | Some s' => if (s' =? 85)%Z then None else Some (s', dvec c v)
                                       | None => None end)
                        (map (fun x => N.of_nat x) [9; 10; 13; 32; 33; 34; 37; 38; 40; 41; 42; 43; 45; 47; 48; 58; 60; 61; 62; 68; 69; 70; 73; 78; 83; 84; 88; 91; 93; 94; 97; 100; 101; 102; 105; 110; 115; 116; 120; 124; 126; 1]%nat) ++ todo') ((s, v) :: R)
  | _, _ => R
  end.
Definition conds : list startCond := [Initial; InString; InDefined; InExist; InShell].
Definition pairs : list (Z * vec) := Eval vm_compute in
  explore (N.to_nat 4000) (map (fun c => (yyStart c, rules c)) conds) [].
Lemma pairs_closed : closed pairs = true. Proof. vm_compute. reflexivity. Qed.
Lemma pairs_start : forallb (fun c => pairIn pairs (yyStart c) (rules c)) conds = true. Proof. vm_compute. reflexivity. Qed.

Local Opaque pairs next yy_accept at_ rules.
Lemma pairIn_spec R s v : pairIn R s v = true -> (s, v) ∈ R.
Proof.
  unfold pairIn. rewrite existsb_exists. intros ([s' v'] & H & E). apply andb_true_iff in E as [E1 E2].
  apply Z.eqb_eq in E1. apply vec_eqb_eq in E2. subst. by apply elem_of_list_In.
Qed.
Lemma byte_in c : byte c -> c ∈ allBytes.
Proof.
  intros [H1 H2]. unfold allBytes. apply elem_of_list_In. apply in_map_iff. exists (N.to_nat c). split; [lia|].
  apply in_seq. lia.
Qed.
Lemma pair_step s v c : (s, v) ∈ pairs -> byte c -> exists s', next s c = Some s' /\
  if (s' =? 85)%Z then dvec c v = [] else (s', dvec c v) ∈ pairs.
Proof.
  intros H Hc. pose proof pairs_closed as HC. unfold closed in HC. rewrite forallb_forall in HC.
  specialize (HC (s, v) ltac:(by apply elem_of_list_In)). cbv beta iota in HC. apply andb_true_iff in HC as [_ HC].
  rewrite forallb_forall in HC. specialize (HC c ltac:(by apply elem_of_list_In, byte_in)). unfold stepOk in HC.
  destruct (next s c) as [s'|]; [|done]. exists s'. split; [done|]. destruct (s' =? 85)%Z.
  - by destruct (dvec c v).
  - by apply pairIn_spec.
Qed.
Lemma pair_acc s v : (s, v) ∈ pairs -> exists a, at_ yy_accept s = Some a /\ accOf v = if (a =? 0)%Z then None else Some a.
Proof.
  intros H. pose proof pairs_closed as HC. unfold closed in HC. rewrite forallb_forall in HC.
  specialize (HC (s, v) ltac:(by apply elem_of_list_In)). cbv beta iota in HC. apply andb_true_iff in HC as [HC _].
  unfold accOk in HC. destruct (at_ yy_accept s) as [a|]; [|done]. exists a. split; [done|]. destruct (accOf v) as [k|].
  - apply andb_true_iff in HC as [E H0]. apply Z.eqb_eq in E as ->. by destruct (k =? 0)%Z.
  - by rewrite HC.
Qed.
Lemma longest_empty text : longest [] text = None.
Proof. induction text as [|c t IH]; cbn; [done|]. by rewrite IH. Qed.

Lemma matchLoop_longest text : Forall byte text -> forall s v n best, (s, v) ∈ pairs ->
  matchLoop s n best text = match longest v text with Some (k, m) => Some (k, (n + m)%nat) | None => best end.
Proof.
  induction 1 as [|c text Hc _ IH]; intros s v n best HR; destruct (pair_acc s v HR) as (a & Ha & Hv); cbn [matchLoop longest]; rewrite Ha, Hv.
  - destruct (a =? 0)%Z; cbn; [done|]. by rewrite Nat.add_0_r.
  - destruct (pair_step s v c HR Hc) as (s' & Hn & Hs). rewrite Hn. destruct (s' =? 85)%Z.
    + rewrite Hs, longest_empty. destruct (a =? 0)%Z; cbn; [done|]. by rewrite Nat.add_0_r.
    + rewrite (IH _ _ _ _ Hs). destruct (longest (dvec c v) text) as [[k m]|]; [by rewrite Nat.add_succ_r|].
      destruct (a =? 0)%Z; cbn; [done|]. by rewrite Nat.add_0_r.
Qed.
Lemma start_pair c : (yyStart c, rules c) ∈ pairs.
Proof.
  apply pairIn_spec. pose proof pairs_start as H. rewrite forallb_forall in H. apply H. apply elem_of_list_In.
  unfold conds. destruct c; set_solver.
Qed.
Lemma match_start c text : Forall byte text -> matchLoop (yyStart c) 0 None text = longest (rules c) text.
Proof. intros H. rewrite (matchLoop_longest _ H _ _ _ _ (start_pair c)). by destruct (longest (rules c) text) as [[k m]|]. Qed.

Lemma default_rule c : (41%Z, RSet true []) ∈ rules c.
Proof. apply elem_of_list_In. Local Transparent rules. destruct c; cbn; tauto. Qed.
Lemma no_empty_match c k : ~ firstRule [] (rules c) k.
Proof. rewrite firstRule_nil. destruct c; vm_compute; done. Qed.

(** The match loop finds the next piece. *)
Lemma nextPiece_longest c text k n : longest (rules c) text = Some (k, n) -> n <> O /\ nextPiece c text k (firstn n text) (skipn n text).
Proof.
  intros E. pose proof (longest_spec (rules c) text) as H. rewrite E in H. destruct H as (H1 & H2 & H3).
  assert (n <> O) as Hn. { intros ->. by apply no_empty_match in H2. }
  split; [done|]. unfold nextPiece. split_and!.
  - by rewrite firstn_skipn.
  - intros Hf. apply (f_equal length) in Hf. rewrite firstn_length in Hf. cbn in Hf. lia.
  - done.
  - intros w' rest' -> Hl k' r Hr Hm. rewrite firstn_length in Hl. rewrite app_length in *.
    destruct (any_firstRule w' (rules c)) as [HA _]. destruct HA as (k2 & H2'); [eauto|].
    apply (H3 (length w') k2); [lia|lia|]. rewrite firstn_app, Nat.sub_diag, firstn_all. cbn. by rewrite app_nil_r.
Qed.
Lemma longest_total c text : text <> [] -> exists k n, longest (rules c) text = Some (k, n).
Proof.
  intros Ht. destruct (longest (rules c) text) as [[k n]|] eqn:E; [eauto|].
  pose proof (longest_spec (rules c) text) as H. rewrite E in H. destruct text as [|x text]; [done|].
  destruct (any_firstRule [x] (rules c)) as [HA _]. destruct HA as (k & Hk).
  { exists 41%Z, (RSet true []). split; [apply default_rule|]. apply m_out. apply not_elem_of_nil. }
  exfalso. apply (H 1%nat k); [cbn; lia|done].
Qed.
Lemma nextPiece_det c text k w rest k' w' rest' : nextPiece c text k w rest -> nextPiece c text k' w' rest' -> k = k' /\ w = w' /\ rest = rest'.
Proof.
  assert (forall k w rest k' w' rest', nextPiece c text k w rest -> nextPiece c text k' w' rest' -> ~ (length w < length w')%nat) as HL.
  { intros k1 w1 r1 k2 w2 r2 (_ & _ & _ & H) (E2 & _ & F2 & _) Hlt.
    destruct (any_firstRule w2 (rules c)) as [_ HA]. destruct HA as (k3 & r3 & H3 & H4); [eauto|]. by apply (H w2 r2 E2 Hlt k3 r3). }
  intros H H'. pose proof (HL _ _ _ _ _ _ H H'). pose proof (HL _ _ _ _ _ _ H' H).
  destruct H as (E & _ & F & _), H' as (E' & _ & F' & _).
  assert (w = w' /\ rest = rest') as [<- <-]. { apply app_inj_1; [lia|congruence]. }
  split_and!; [|done|done]. by eapply firstRule_det.
Qed.

Lemma lexAll_splits env fuel st text : (length text <= fuel)%nat -> Forall byte text ->
  exists ts st' cmds, lexAll env fuel st text = Some (ts, st', cmds) /\ splits env st text ts st' cmds.
Proof.
  revert st text. induction fuel as [|fuel IH]; intros st text Hl Hb.
  - destruct text; [|cbn in Hl; lia]. exists [], st, []. split; [done|constructor].
  - destruct text as [|c text]; [exists [], st, []; split; [done|constructor]|].
    set (t := c :: text) in *. destruct (longest_total (lx_cond st) t) as (k & n & E); [done|].
    destruct (nextPiece_longest _ _ _ _ E) as [Hn HP]. cbn [lexAll]. fold t. unfold t at 1. cbv iota beta.
    rewrite match_start, E by done. destruct n as [|n]; [done|].
    destruct (IH (ef_state (action env k (firstn (S n) t) st)) (skipn (S n) t)) as (ts & st' & cmds & E1 & E2).
    { rewrite skipn_length. unfold t in *. cbn [length] in *. lia. }
    { by apply Forall_drop. }
    rewrite E1. eexists _, _, _. split; [done|]. by eapply sp_piece.
Qed.
Lemma splits_det env st text ts st' cmds ts2 st2 cmds2 :
  splits env st text ts st' cmds -> splits env st text ts2 st2 cmds2 -> ts = ts2 /\ st' = st2 /\ cmds = cmds2.
Proof.
  intros H. revert ts2 st2 cmds2. induction H as [st|st text k w rest ts st' cmds HP HS IH]; intros ts2 st2 cmds2 H'.
  - inversion H' as [|? ? ? ? ? ? ? ? HP]; subst; [done|]. destruct HP as (E & Hw & _). symmetry in E. apply app_nil in E as [-> _]. done.
  - inversion H' as [|? ? k2 w2 rest2 ts3 ? cmds3 HP2 HS2]; subst.
    + destruct HP as (E & Hw & _). symmetry in E. apply app_nil in E as [-> _]. done.
    + destruct (nextPiece_det _ _ _ _ _ _ _ _ HP HP2) as (<- & <- & <-). apply IH in HS2 as (-> & -> & ->). done.
Qed.
Lemma lexText_splits env st text ts st' cmds : Forall byte text ->
  lexText env st text = Some (ts, st', cmds) <-> splits env st text ts st' cmds.
Proof.
  intros Hb. destruct (lexAll_splits env (length text) st text ltac:(done) Hb) as (ts1 & st1 & c1 & E & HS).
  unfold lexText. rewrite E. split.
  - intros H; injection H as <- <- <-. done.
  - intros H. by destruct (splits_det _ _ _ _ _ _ _ _ _ HS H) as (-> & -> & ->).
Qed.

(** ** Written tokens *)
Definition runV (v : vec) (w : list N) : vec := fold_left (fun v c => dvec c v) w v.
Lemma runV_app v a b : runV v (a ++ b) = runV (runV v a) b.
Proof. apply fold_left_app. Qed.
Lemma runV_acc v w : accOf (runV v w) = None \/ exists k, accOf (runV v w) = Some k /\ firstRule w v k.
Proof.
  revert v. induction w as [|c w IH]; intros v; cbn.
  - destruct (accOf v) as [k|] eqn:E; [right; exists k; split; [done|by apply firstRule_nil]|by left].
  - destruct (IH (dvec c v)) as [H|(k & H1 & H2)]; [by left|]. right. exists k. split; [done|]. by apply firstRule_cons.
Qed.
Lemma firstRule_runV v w x k : firstRule (w ++ x) v k <-> firstRule x (runV v w) k.
Proof. revert v. induction w as [|c w IH]; intros v; cbn; [done|]. by rewrite firstRule_cons, IH. Qed.
Lemma not_first_empty x k : ~ firstRule x [] k. Proof. intros H; inversion H. Qed.
(** A piece ends where no rule can go on. *)
Lemma piece c w rest k : w <> [] -> accOf (runV (rules c) w) = Some k ->
  match rest with d :: _ => dvec d (runV (rules c) w) = [] | [] => True end -> nextPiece c (w ++ rest) k w rest.
Proof.
  intros Hw Ha Hr. unfold nextPiece. split_and!; [done|done| |].
  - destruct (runV_acc (rules c) w) as [H|(k' & H1 & H2)]; [congruence|]. congruence.
  - intros w' rest' E Hl k' r Hin Hm. destruct (any_firstRule w' (rules c)) as [HA _]. destruct HA as (k2 & H2); [eauto|].
    assert (exists x, w' = w ++ x) as (x & ->).
    { exists (skipn (length w) w'). rewrite <- (firstn_skipn (length w) w') at 1. f_equal.
      apply (f_equal (firstn (length w))) in E. rewrite firstn_app, Nat.sub_diag, firstn_all in E. cbn in E. rewrite app_nil_r in E.
      rewrite firstn_app in E. replace (length w - length w')%nat with O in E by lia. cbn in E. by rewrite app_nil_r in E. }
    rewrite <- app_assoc in E. apply app_inv_head in E. rewrite app_length in Hl. destruct x as [|d x]; [cbn in Hl; lia|].
    subst rest. cbn in Hr. rewrite firstRule_runV, firstRule_cons, Hr in H2. by apply not_first_empty in H2.
Qed.
Lemma splits_silent env st w rest k ts st' cmds : nextPiece (lx_cond st) (w ++ rest) k w rest ->
  ef_token (action env k w st) = None -> ef_command (action env k w st) = None ->
  splits env (ef_state (action env k w st)) rest ts st' cmds -> splits env st (w ++ rest) ts st' cmds.
Proof. intros HP E1 E2 HS. pose proof (sp_piece _ _ _ _ _ _ _ _ _ HP HS) as H. by rewrite E1, E2 in H. Qed.

Lemma dvec_star neg l k c : dvec c [(k, RStar (RSet neg l))] = if xorb neg (containsChar c l) then [(k, RStar (RSet neg l))] else [].
Proof. cbn. by destruct (xorb neg (containsChar c l)). Qed.
Lemma runV_star neg l k w : Forall (fun c => xorb neg (containsChar c l) = true) w -> runV [(k, RStar (RSet neg l))] w = [(k, RStar (RSet neg l))].
Proof. unfold runV. induction 1 as [|c w Hc _ IH]; [done|]. cbn [fold_left]. by rewrite dvec_star, Hc. Qed.

Lemma star_run c neg l k w : (forall x, xorb neg (containsChar x l) = true -> x ∈ w -> dvec x (rules c) = [(k, RStar (RSet neg l)); (41%Z, REps)]) ->
  w <> [] -> Forall (fun x => xorb neg (containsChar x l) = true) w ->
  accOf (runV (rules c) w) = Some k /\ forall d, xorb neg (containsChar d l) = false -> dvec d (runV (rules c) w) = [].
Proof.
  intros HR Hw HF. destruct HF as [|x w Hx HF]; [done|]. change (runV (rules c) (x :: w)) with (runV (dvec x (rules c)) w).
  rewrite (HR x Hx ltac:(left)). destruct HF as [|y w Hy HF].
  - split; [done|]. intros d Hd. cbn. by rewrite Hd.
  - change (runV [(k, RStar (RSet neg l)); (41%Z, REps)] (y :: w)) with (runV (dvec y [(k, RStar (RSet neg l)); (41%Z, REps)]) w).
    assert (dvec y [(k, RStar (RSet neg l)); (41%Z, REps)] = [(k, RStar (RSet neg l))]) as -> by (cbn; by rewrite Hy).
    rewrite runV_star by done. split; [done|]. intros d Hd. by rewrite dvec_star, Hd.
Qed.
Lemma in_set c l : c ∈ l -> xorb false (containsChar c l) = true.
Proof. intros H. apply contains_spec in H. by rewrite H. Qed.
Lemma out_set c l : c ∉ l -> xorb true (containsChar c l) = true.
Proof. intros H. destruct (containsChar c l) eqn:E; [by apply contains_spec in E|done]. Qed.
Lemma run_digits w : w <> [] -> Forall (fun c => c ∈ digits) w ->
  accOf (runV (rules Initial) w) = Some 2%Z /\ forall d, d ∉ digits -> dvec d (runV (rules Initial) w) = [].
Proof.
  intros Hw HF. destruct (star_run Initial false digits 2 w) as [H1 H2]; [|done| |split; [done|]].
  - intros x Hx _. assert (x ∈ digits) as Hc by (apply contains_spec; by destruct (containsChar x digits)).
    apply elem_of_list_In in Hc. cbn in Hc. repeat destruct Hc as [<-|Hc]; [vm_compute; done..|done].
  - apply (Forall_impl _ _ _ HF). intros x Hx. by apply in_set.
  - intros d Hd. apply H2. destruct (containsChar d digits) eqn:E; [by apply contains_spec in E|done].
Qed.
Lemma run_blanks w : w <> [] -> Forall blank w ->
  accOf (runV (rules Initial) w) = Some 1%Z /\ forall d, ~ blank d -> dvec d (runV (rules Initial) w) = [].
Proof.
  intros Hw HF. destruct (star_run Initial false [32; 9] 1 w) as [H1 H2]; [|done| |split; [done|]].
  - intros x _ Hx. rewrite Forall_forall in HF. destruct (HF x Hx) as [-> | ->]; vm_compute; done.
  - apply (Forall_impl _ _ _ HF). intros x Hx. apply in_set. destruct Hx as [-> | ->]; set_solver.
  - intros d Hd. apply H2. destruct (containsChar d [32; 9]) eqn:E; [|done]. apply contains_spec in E. exfalso. apply Hd. unfold blank. set_solver.
Qed.
Definition ended (rest : list N) : Prop := match rest with c :: _ => blank c | [] => True end.
Lemma blank_stops rest v : ended rest -> dvec 32 v = [] -> dvec 9 v = [] -> match rest with d :: _ => dvec d v = [] | [] => True end.
Proof. intros Hr H1 H2. destruct rest as [|d rest]; [done|]. by destruct Hr as [-> | ->]. Qed.

Lemma any_rest (rest : list N) v : (forall d, dvec d v = []) -> match rest with d :: _ => dvec d v = [] | [] => True end.
Proof. intros H. by destruct rest. Qed.
Lemma decimal_spec w z : decimal w z -> w <> [] /\ Forall (fun c => c ∈ digits) w /\ digitsVal w = z /\ (0 <= z)%Z.
Proof.
  assert (forall c, c ∈ digits -> (0 <= Z.of_N c - 48)%Z) as HD.
  { intros c Hc. apply elem_of_list_In in Hc. cbn in Hc. repeat destruct Hc as [<-|Hc]; [vm_compute; done..|done]. }
  induction 1 as [c Hc|w c z Hw (IH1 & IH2 & IH3 & IH4) Hc].
  - split_and!; [done|by apply Forall_singleton|done|by apply HD].
  - split_and!.
    + by destruct w.
    + apply Forall_app. split; [done|by apply Forall_singleton].
    + unfold digitsVal in *. rewrite fold_left_app. cbn [fold_left]. unfold qstr, qchar in *. by rewrite IH3.
    + pose proof (HD c Hc). lia.
Qed.

(** The text up to the next special character. *)
Lemma span_special (P : N -> Prop) `{forall c, Decision (P c)} c s : ~ P c ->
  exists u v, c :: s = u ++ v /\ u <> [] /\ Forall (fun x => ~ P x) u /\ match v with d :: _ => P d | [] => True end.
Proof.
  revert c. induction s as [|d s IHs]; intros c Hc.
  - exists [c], []. split_and!; [done|done|by repeat constructor|done].
  - destruct (decide (P d)) as [Hd|Hd].
    + exists [c], (d :: s). split_and!; [done|done|by repeat constructor|done].
    + destruct (IHs d Hd) as (u & v & E & Hu & Hq & Hv). exists (c :: u), v. rewrite E. split_and!; [done|done|by constructor|done].
Qed.
Lemma flat_map_plain (f : N -> list N) u : Forall (fun x => f x = [x]) u -> flat_map f u = u.
Proof. induction 1 as [|x u Hx _ IH]; [done|]. cbn. by rewrite Hx, IH. Qed.

Lemma strings env (s : list N) : 10 ∉ s -> forall (acc : list N) rest ts st' cmds, ended rest ->
  splits env (Lexst Initial (acc ++ s)) rest ts st' cmds ->
  splits env (Lexst InString acc) (quoteText s ++ 34 :: rest) (STRING (acc ++ s) :: ts) st' cmds.
Proof.
  remember (length s) as n eqn:En. assert (length s <= n)%nat as Hle by lia. clear En. revert s Hle.
  induction n as [|n IH]; intros s Hle Hs acc rest ts st' cmds Hr HS.
  - destruct s; [|cbn in Hle; lia]. rewrite app_nil_r in *. cbn.
    apply (sp_piece env (Lexst InString acc) (34 :: rest) 36 [34] rest); [|done].
    apply (piece InString [34]); [done|done|]. by apply blank_stops.
  - destruct s as [|c s]; [apply (IH [] ltac:(cbn; lia) Hs acc rest ts st' cmds Hr HS)|].
    destruct (decide (c = 34)) as [->|Hc].
    + change (quoteText (34 :: s) ++ 34 :: rest) with ([34; 34] ++ (quoteText s ++ 34 :: rest)).
      apply (splits_silent env (Lexst InString acc) [34; 34] _ 35); [|done|done|].
      { apply (piece InString [34; 34]); [done|done|]. destruct (quoteText s ++ 34 :: rest); [done|]. reflexivity. }
      cbn [action ef_state silent lx_cond lx_str]. replace (acc ++ 34 :: s) with ((acc ++ [34]) ++ s) in * by (by rewrite <- app_assoc).
      apply IH; [cbn in Hle; lia|set_solver|done|done].
    + destruct (span_special (fun x => x = 34) c s Hc) as (u & v & E & Hu & Hq & Hv).
      rewrite E in *. assert (10 ∉ u /\ 10 ∉ v) as [H10u H10v] by set_solver.
      assert (quoteText (u ++ v) = u ++ quoteText v) as EQ.
      { unfold quoteText. rewrite flat_map_app. f_equal. apply flat_map_plain. apply (Forall_impl _ _ _ Hq).
        intros x Hx. by destruct (N.eqb_spec x 34). }
      rewrite EQ, <- app_assoc. destruct (star_run InString true [10; 34] 34 u) as [HV1 HV2]; [|done| |].
      { intros x Hx _. cbn in Hx |- *. destruct (N.eqb_spec x 10); [done|]. destruct (N.eqb_spec x 34); done. }
      { rewrite Forall_forall in Hq |- *. intros x Hx. apply out_set. specialize (Hq x Hx). set_solver. }
      apply (splits_silent env (Lexst InString acc) u _ 34); [|done|done|].
      { apply (piece InString u); [done|done|]. destruct v as [|d v]; cbn; [by apply HV2|]. subst d. cbn. by apply HV2. }
      cbn [action ef_state silent lx_cond lx_str]. replace (acc ++ u ++ v) with ((acc ++ u) ++ v) in * by (by rewrite <- app_assoc).
      apply IH; [|done|done|done]. apply (f_equal length) in E. rewrite app_length in E. cbn in E, Hle. destruct u; [done|]. cbn in E, Hle. rewrite app_length in Hle. lia.
Qed.

Lemma shells env (s : list N) : 10 ∉ s -> 94 ∉ s -> forall (acc : list N) rest ts st' cmds, ended rest ->
  splits env (Lexst Initial (acc ++ s)) rest ts st' cmds ->
  splits env (Lexst InShell acc) (shellText s ++ 93 :: rest) (NUMBER (le_system env (acc ++ s)) :: ts) st' ((acc ++ s) :: cmds).
Proof.
  remember (length s) as n eqn:En. assert (length s <= n)%nat as Hle by lia. clear En. revert s Hle.
  induction n as [|n IH]; intros s Hle Hs Hs' acc rest ts st' cmds Hr HS.
  - destruct s; [|cbn in Hle; lia]. rewrite app_nil_r in *. cbn.
    apply (sp_piece env (Lexst InShell acc) (93 :: rest) 40 [93] rest); [|done].
    apply (piece InShell [93]); [done|done|]. by apply blank_stops.
  - destruct s as [|c s]; [apply (IH [] ltac:(cbn; lia) Hs Hs' acc rest ts st' cmds Hr HS)|].
    destruct (decide (c = 91 \/ c = 93)) as [Hc|Hc].
    + assert (shellText (c :: s) ++ 93 :: rest = [94; c] ++ (shellText s ++ 93 :: rest)) as -> by (by destruct Hc as [-> | ->]).
      apply (splits_silent env (Lexst InShell acc) [94; c] _ (if c =? 91 then 38%Z else 39%Z)); [|by destruct Hc as [-> | ->]|by destruct Hc as [-> | ->]|].
      { apply (piece InShell [94; c]); [done|by destruct Hc as [-> | ->]|]. destruct (shellText s ++ 93 :: rest); [done|]. by destruct Hc as [-> | ->]. }
      assert (ef_state (action env (if c =? 91 then 38%Z else 39%Z) [94; c] (Lexst InShell acc)) = Lexst InShell (acc ++ [c])) as -> by (by destruct Hc as [-> | ->]).
      replace (acc ++ c :: s) with ((acc ++ [c]) ++ s) in * by (by rewrite <- app_assoc).
      apply IH; [cbn in Hle; lia|set_solver|set_solver|done|done].
    + destruct (span_special (fun x => x = 91 \/ x = 93) c s Hc) as (u & v & E & Hu & Hq & Hv).
      rewrite E in *. assert (10 ∉ u /\ 10 ∉ v /\ 94 ∉ u /\ 94 ∉ v) as (H10u & H10v & H94u & H94v) by set_solver.
      assert (shellText (u ++ v) = u ++ shellText v) as EQ.
      { unfold shellText. rewrite flat_map_app. f_equal. apply flat_map_plain. apply (Forall_impl _ _ _ Hq).
        intros x Hx. destruct (N.eqb_spec x 91); [naive_solver|]. destruct (N.eqb_spec x 93); [naive_solver|done]. }
      rewrite EQ, <- app_assoc. destruct (star_run InShell true [10; 91; 93; 94] 37 u) as [HV1 HV2]; [|done| |].
      { intros x Hx _. let r := eval vm_compute in (rules InShell) in change (rules InShell) with r. cbn in Hx |- *. destruct (N.eqb_spec x 10); [done|]. destruct (N.eqb_spec x 91); [done|]. destruct (N.eqb_spec x 93); [done|]. destruct (N.eqb_spec x 94); done. }
      { rewrite Forall_forall in Hq |- *. intros x Hx. apply out_set. specialize (Hq x Hx). set_solver. }
      apply (splits_silent env (Lexst InShell acc) u _ 37); [|done|done|].
      { apply (piece InShell u); [done|done|]. destruct v as [|d v]; cbn; [by apply HV2|]. by destruct Hv as [-> | ->]; cbn; apply HV2. }
      cbn [action ef_state silent lx_cond lx_str]. replace (acc ++ u ++ v) with ((acc ++ u) ++ v) in * by (by rewrite <- app_assoc).
      apply IH; [|done|done|done|done]. apply (f_equal length) in E. rewrite app_length in E. cbn in E, Hle. destruct u; [done|]. cbn in E, Hle. rewrite app_length in Hle. lia.
Qed.

Lemma dropA_id s : Forall (fun c => ~ (c = 32 \/ 9 <= c <= 13)) s -> dropSpacesA s = s.
Proof.
  intros H. destruct H as [|c s Hc _]; [done|]. cbn. unfold isSpaceA.
  destruct (N.eqb_spec c 32); [naive_solver|]. destruct (N.leb_spec 9 c); [|done]. destruct (N.leb_spec c 13); [|done]. naive_solver lia.
Qed.
Lemma nameInParens_spec (n : list N) : n <> [] -> Forall (fun c => ~ (c = 32 \/ 9 <= c <= 13) /\ c <> 34 /\ c <> 41) n -> nameInParens (40 :: n ++ [41]) = n.
Proof.
  intros Hn HF. unfold nameInParens. change (indexOfChar 40 (40 :: n ++ [41])) with (Some O). cbn [skipn]. rewrite !skipn_O.
  assert (lastIndexOfChar 41 (n ++ [41]) = Some (length n)) as ->.
  { clear. induction n as [|c n IH]; [done|]. cbn. by rewrite IH. }
  unfold qleft. rewrite firstn_app, Nat.sub_diag, firstn_all. cbn [firstn]. rewrite app_nil_r.
  assert (trimmedA n = n) as ->.
  { assert (Forall (fun c => ~ (c = 32 \/ 9 <= c <= 13)) n) as HF' by (apply (Forall_impl _ _ _ HF); tauto).
    unfold trimmedA. rewrite (dropA_id n HF'). pose proof (dropA_id _ (Forall_rev HF')) as E. unfold qstr, qchar in *. rewrite E. apply rev_involutive. }
  assert (startsWith [34] n = false) as ->.
  { destruct n as [|c n]; [done|]. inversion HF as [|? ? (_ & Hq & _) _]; subst. cbn [startsWith]. destruct (N.eqb_spec 34 c); [congruence|done]. }
  assert (endsWith [34] n = false) as ->; [|done].
  unfold endsWith, qstr, qchar in *. cbn [rev app]. apply Forall_rev in HF. destruct (rev n) as [|c r]; [done|].
  inversion HF as [|? ? (_ & Hq & _) _]; subst. cbn [startsWith]. destruct (N.eqb_spec 34 c); [congruence|done].
Qed.

Lemma head_blank env w t cs : spelled env w t cs -> exists c w', w = c :: w' /\ ~ blank c.
Proof.
  assert (forall c, c ∈ digits -> ~ blank c) as HD. { intros c Hc [-> | ->]; apply contains_spec in Hc; by vm_compute in Hc. }
  intros H. inversion H as [? z Hz|? ? Hin|s ?|v n HF Hn ?|s ? ?]; subst.
  - apply decimal_spec in Hz as (H1 & H2 & _). destruct w as [|c w]; [done|]. exists c, w. split; [done|]. inversion H2; subst. by apply HD.
  - apply elem_of_list_In in Hin. cbn in Hin. repeat destruct Hin as [[= <- <-]|Hin]; [eexists _, _; split; [done|]; by intros [|]..|done].
  - exists 34, (quoteText s ++ [34]). split; [done|]. by intros [|].
  - inversion HF as [|? y ? l' Hy HF']; subst. exists y, (l' ++ 40 :: n ++ [41]). split; [done|]. intros [-> | ->]; naive_solver.
  - exists 91, (shellText s ++ [93]). split; [done|]. by intros [|].
Qed.

Lemma token_splits env w t cs rest ts cmds (st : lexst) : lx_cond st = Initial -> spelled env w t cs -> ended rest ->
  (forall st1, lx_cond st1 = Initial -> exists st', splits env st1 rest ts st' cmds /\ lx_cond st' = Initial) ->
  exists st', splits env st (w ++ rest) (t :: ts) st' (cs ++ cmds) /\ lx_cond st' = Initial.
Proof.
  intros Hst HS Hr Hrest. inversion HS as [? z Hz Hmax|? ? Hin|s Hs|v n HF Hn HN|s Hs1 Hs2]; subst; unfold qstr, qchar in *.
  - apply decimal_spec in Hz as (H1 & H2 & H3 & H4). destruct (run_digits w H1 H2) as [HA HB].
    destruct (Hrest st Hst) as (st' & HS' & E'). exists st'. split; [|done].
    assert (NUMBER z = NUMBER (atoi w)) as ->. { unfold atoi, intMax. rewrite H3. f_equal. lia. }
    apply (sp_piece env st (w ++ rest) 2 w rest ts st' cmds); [|done]. rewrite Hst. apply piece; [done|done|].
    apply blank_stops; [done| |]; apply HB; by apply (bool_decide_unpack _).
  - destruct (Hrest st Hst) as (st' & HS' & E'). exists st'. split; [|done].
    assert (exists k, w <> [] /\ accOf (runV (rules Initial) w) = Some k /\ dvec 32 (runV (rules Initial) w) = [] /\ dvec 9 (runV (rules Initial) w) = []
            /\ action env k w st = tok t st) as (k & H1 & H2 & H3 & H4 & H5).
    { apply elem_of_list_In in Hin. cbn in Hin.
      repeat destruct Hin as [[= <- <-]|Hin]; [eexists; split_and!; [done|vm_compute; reflexivity|vm_compute; reflexivity|vm_compute; reflexivity|reflexivity]..|done]. }
    pose proof (sp_piece env st (w ++ rest) k w rest ts st' cmds) as HP. rewrite H5 in HP. apply HP; [|done].
    rewrite Hst. apply piece; [done|done|]. by apply blank_stops.
  - destruct (Hrest (Lexst Initial s) eq_refl) as (st' & HS' & E'). exists st'. split; [|done].
    assert ((34 :: quoteText s ++ [34]) ++ rest = [34] ++ (quoteText s ++ 34 :: rest)) as Ex by (cbn; f_equal; exact (eq_sym (app_assoc (quoteText s) [34] rest))).
    refine (eq_ind_r (fun x => splits env st x _ st' _) _ Ex).
    apply (splits_silent env st [34] _ 25); [|done|done|].
    { rewrite Hst. apply piece; [done|done|]. apply any_rest. intros d. reflexivity. }
    cbn [action ef_state silent]. by apply (strings env s Hs []).
  - assert (n <> [] /\ 41 ∉ n) as [_ H41]. { split; [done|]. intros Hx. rewrite Forall_forall in HN. by apply HN in Hx as (_ & _ & ?). }
    destruct (Hrest (Lexst Initial (lx_str st)) eq_refl) as (st' & HS' & E'). exists st'. split; [|done].
    rewrite <- (app_assoc v).
    apply (splits_silent env st v _ 27); [|done|done|].
    { rewrite Hst. change (s2q "DEFINED") with [68; 69; 70; 73; 78; 69; 68] in HF.
      repeat (apply Forall2_cons_inv_l in HF as (? & ? & ? & HF & ->)). apply Forall2_nil_inv_l in HF as ->.
      apply piece; [done| |]; destruct_or!; subst; vm_compute; reflexivity. }
    cbn [action ef_state silent].
    assert (NUMBER (if le_defined env n then 1 else 0) = NUMBER (bool2Z (le_defined env (nameInParens (40 :: n ++ [41]))))) as ->.
    { by rewrite nameInParens_spec. }
    apply (sp_piece env (Lexst InDefined (lx_str st)) ((40 :: n ++ [41]) ++ rest) 30 (40 :: n ++ [41]) rest ts st' cmds); [|done].
    cbn [lx_cond]. assert (runV (rules InDefined) (40 :: n ++ [41]) = [(30%Z, REps)]) as HV.
    { destruct n as [|x n]; [done|]. change (runV (rules InDefined) (40 :: (x :: n) ++ [41])) with (runV (dvec x (dvec 40 (rules InDefined))) (n ++ [41])).
      assert (dvec x (dvec 40 (rules InDefined)) = [(30%Z, RSeq (RStar (RSet true [41])) (rchar 41))]) as ->.
      { let r := eval vm_compute in (dvec 40 (rules InDefined)) in change (dvec 40 (rules InDefined)) with r. cbn. destruct (N.eqb_spec x 41); [set_solver|done]. }
      assert (41 ∉ n) as Hn' by set_solver. clear -Hn'. induction n as [|y n IH]; [done|].
      cbn [app runV fold_left]. assert (dvec y [(30%Z, RSeq (RStar (RSet true [41])) (rchar 41))] = [(30%Z, RSeq (RStar (RSet true [41])) (rchar 41))]) as ->.
      { cbn. destruct (N.eqb_spec y 41); [set_solver|done]. }
      apply IH. set_solver. }
    apply piece; [done|by rewrite HV|]. rewrite HV. by destruct rest.
  - destruct (Hrest (Lexst Initial s) eq_refl) as (st' & HS' & E'). exists st'. split; [|done].
    assert ((91 :: shellText s ++ [93]) ++ rest = [91] ++ (shellText s ++ 93 :: rest)) as Ex by (cbn; f_equal; exact (eq_sym (app_assoc (shellText s) [93] rest))).
    refine (eq_ind_r (fun x => splits env st x _ st' _) _ Ex).
    apply (splits_silent env st [91] _ 26); [|done|done|].
    { rewrite Hst. apply piece; [done|done|]. apply any_rest. intros d. reflexivity. }
    cbn [action ef_state silent]. by apply (shells env s Hs1 Hs2 []).
Qed.

Lemma written_splits env text ts cmds st : written env text ts cmds -> lx_cond st = Initial ->
  exists st', splits env st text ts st' cmds /\ lx_cond st' = Initial.
Proof.
  intros H. revert st. induction H as [b Hb|b w t cs rest ts cmds Hb Hw Hr _ IH]; intros st Hst.
  - destruct b as [|c b]; [exists st; split; [constructor|done]|]. exists st. split; [|done].
    rewrite <- (app_nil_r (c :: b)). apply (splits_silent env st (c :: b) [] 1); [|done|done|cbn; constructor].
    rewrite Hst. destruct (run_blanks (c :: b)) as [HA _]; [done|done|]. by apply piece.
  - destruct (token_splits env w t cs rest ts cmds st Hst Hw Hr IH) as (st' & HS & E).
    destruct b as [|c b]; [by exists st'|]. exists st'. split; [|done].
    apply (splits_silent env st (c :: b) _ 1); [|done|done|done]. rewrite Hst. destruct (run_blanks (c :: b)) as [HA HB]; [done|done|].
    apply piece; [done|done|]. destruct (head_blank _ _ _ _ Hw) as (d & w' & -> & Hd). exact (HB d Hd).
Qed.
