(** The table-driven parser follows the grammar. *)
From stdpp Require Import prelude.
From Verif Require Import Base BaseProofs PPExpr PPExprSpec.
Local Open Scope Z_scope.

(** ** The machine without the delayed reading of tokens *)
Definition hdCode (i : list token) : Z := tokCode (head i).
Definition hdVal (i : list token) : value := match i with t :: _ => valueOf t | [] => VNone end.
Fixpoint parseP (fuel : nat) (st : pstack) (input : list token) : pres :=
  match fuel with
  | O => PFuel
  | S fuel' =>
    match st with
    | [] => PUndefined
    | (s, _) :: _ =>
      match t_action s (hdCode input) with
      | None => PUndefined
      | Some act =>
        if act =? acceptState then match valueAt st 0 with VNum z => PValue z | _ => PUndefined end
        else if 0 <? act then parseP fuel' ((act, hdVal input) :: st) (tail input)
        else if act <? 0 then
          match reduce (- act - 1) st with
          | None => PUndefined
          | Some (inl st') => parseP fuel' st' input
          | Some (inr e) => e
          end
        else PSyntax
      end
    end
  end.

Definition states : list Z := map Z.of_nat (seq 0 61).
Definition codes : list Z := map Z.of_nat (seq 0 25).
Lemma code_codes t : code t ∈ codes.
Proof. destruct t; apply (bool_decide_unpack _); vm_compute; done. Qed.
Lemma hd_codes i : hdCode i ∈ codes.
Proof. destruct i as [|t i]; cbn; [apply (bool_decide_unpack _); vm_compute; done|apply code_codes]. Qed.

Lemma at_states s x : at_ action_index s = Some x -> 0 <= s < 122.
Proof.
  unfold at_. destruct (s <? 0) eqn:E; [done|]. apply Z.ltb_ge in E. intros H.
  assert (Z.to_nat s < length action_index)%nat by (apply nth_error_Some; congruence). cbn in *. lia.
Qed.

Definition zall (n : nat) (f : Z -> bool) : bool := forallb (fun k => f (Z.of_nat k)) (seq 0 n).
Lemma zall_spec n f z : zall n f = true -> 0 <= z < Z.of_nat n -> f z = true.
Proof.
  unfold zall. rewrite forallb_forall. intros H Hz. specialize (H (Z.to_nat z)). rewrite Z2Nat.id in H by lia.
  apply H. apply in_seq. lia.
Qed.

(** In the states whose tokens are not read the action does not depend on the token. *)
Definition lazyOk (s : Z) : bool :=
  match at_ action_index s with
  | Some ai => if ai =? - terminalCount then
      zall 25 (fun c => bool_decide (t_action s c = t_action s (-1)))
      && (match t_action s (-1) with Some a => a <=? 0 | None => true end)
    else true
  | None => true
  end.
Lemma lazy_all : zall 122 lazyOk = true.
Proof. vm_compute. done. Qed.
Lemma codes_lt c : c ∈ codes -> 0 <= c < 25.
Proof. unfold codes. rewrite elem_of_list_fmap. intros (k & -> & Hk). apply elem_of_seq in Hk. lia. Qed.
Lemma lazy_action s i : at_ action_index s = Some (- terminalCount) ->
  t_action s (-1) = t_action s (hdCode i) /\ forall a, t_action s (-1) = Some a -> a <= 0.
Proof.
  intros H. pose proof (at_states _ _ H) as Hs. pose proof (zall_spec 122 lazyOk s lazy_all ltac:(lia)) as L.
  unfold lazyOk in L. rewrite H in L. rewrite Z.eqb_refl in L. apply andb_true_iff in L as [L1 L2]. split.
  - pose proof (codes_lt _ (hd_codes i)) as Hc. pose proof (zall_spec 25 _ (hdCode i) L1 ltac:(lia)) as L.
    cbv beta in L. apply bool_decide_eq_true in L. congruence.
  - intros a Ha. rewrite Ha in L2. by apply Z.leb_le in L2.
Qed.

Definition pending (tok : option (option token)) (input : list token) : list token :=
  match tok with Some (Some t) => t :: input | _ => input end.
Lemma parse_pending fuel st tok input : (tok = Some None -> input = []) ->
  parseLoop fuel st tok input = parseP fuel st (pending tok input).
Proof.
  intros Hn. revert st tok input Hn. induction fuel as [|fuel IH]; intros st tok input Hn; [done|].
  cbn [parseLoop parseP]. destruct st as [|[s v] st]; [done|].
  destruct (at_ action_index s) as [ai|] eqn:Ea.
  2: { unfold t_action. rewrite Ea. done. }
  assert (Hread : forall t1 i1, (t1 = Some None -> i1 = []) -> t1 <> None -> pending t1 i1 = pending tok input ->
    match t_action s (match t1 with Some t => tokCode t | None => -1 end) with
        | None => PUndefined
        | Some act =>
          if act =? acceptState then match valueAt ((s, v) :: st) 0 with VNum z => PValue z | _ => PUndefined end
          else if 0 <? act then
            parseLoop fuel ((act, match t1 with Some (Some t) => valueOf t | _ => VNone end) :: (s, v) :: st) None i1
          else if act <? 0 then
            match reduce (- act - 1) ((s, v) :: st) with
            | None => PUndefined
            | Some (inl st') => parseLoop fuel st' t1 i1
            | Some (inr e) => e
            end
          else PSyntax
        end = 
      match t_action s (hdCode (pending tok input)) with
      | None => PUndefined
      | Some act =>
        if act =? acceptState then match valueAt ((s, v) :: st) 0 with VNum z => PValue z | _ => PUndefined end
        else if 0 <? act then parseP fuel ((act, hdVal (pending tok input)) :: (s, v) :: st) (tail (pending tok input))
        else if act <? 0 then
          match reduce (- act - 1) ((s, v) :: st) with
          | None => PUndefined
          | Some (inl st') => parseP fuel st' (pending tok input)
          | Some (inr e) => e
          end
        else PSyntax
      end).
  { intros t1 i1 H1 H2 <-. destruct t1 as [t1|]; [|done].
    assert (tokCode t1 = hdCode (pending (Some t1) i1)) as <-.
    { destruct t1 as [t1|]; [done|]. rewrite (H1 eq_refl). done. }
    destruct (t_action s (tokCode t1)) as [act|]; [|done].
    destruct (act =? acceptState); [done|]. destruct (0 <? act).
    - rewrite IH by done. destruct t1 as [t1|]; [done|]. rewrite (H1 eq_refl). done.
    - destruct (act <? 0); [|done]. destruct (reduce _ _) as [[st'|e]|]; [|done|done]. by rewrite IH. }
  destruct tok as [tok|].
  - by apply (Hread (Some tok) input).
  - destruct (- terminalCount =? ai) eqn:Et; cbn [negb].
    + apply Z.eqb_eq in Et. subst ai. destruct (lazy_action s (pending None input) Ea) as [E1 E2].
      rewrite <- E1. destruct (t_action s (-1)) as [act|]; [|done]. specialize (E2 act eq_refl).
      destruct (act =? acceptState) eqn:E3; [done|]. destruct (0 <? act) eqn:E4; [apply Z.ltb_lt in E4; lia|].
      destruct (act <? 0); [|done]. destruct (reduce _ _) as [[st'|e]|]; [|done|done]. by rewrite IH.
    + destruct input as [|t i]; [by apply (Hread (Some None) [])|by apply (Hread (Some (Some t)) i)].
Qed.

(** ** Completeness *)
Definition ntOf (k : nat) : Z := match k with 0%nat => 1 | 1%nat => 2 | 2%nat => 3 | 3%nat => 5 | 4%nat => 6 | 5%nat => 7 | 6%nat => 8 | _ => 9 end.
(** The lowest level that may start in a state. *)
Definition startLevel : list (Z * nat) :=
  [(0, 0%nat); (3, 0%nat); (20, 1%nat); (21, 1%nat); (22, 1%nat); (23, 1%nat); (35, 3%nat); (36, 3%nat); (37, 3%nat); (38, 3%nat); (39, 3%nat); (40, 3%nat);
   (42, 4%nat); (43, 4%nat); (45, 5%nat); (46, 5%nat); (48, 6%nat); (49, 6%nat); (50, 6%nat); (1, 7%nat); (2, 7%nat); (4, 7%nat)].
Definition starts (s : Z) (k : nat) : bool := existsb (fun p => (fst p =? s) && Nat.leb (snd p) k) startLevel.
Definition opLevel (c : Z) : option nat :=
  if (3 <=? c) && (c <=? 6) then Some 0%nat else if (7 <=? c) && (c <=? 12) then Some 2%nat
  else if (13 <=? c) && (c <=? 14) then Some 3%nat else if (15 <=? c) && (c <=? 16) then Some 4%nat
  else if (17 <=? c) && (c <=? 19) then Some 5%nat else None.
Definition follows (k : nat) (c : Z) : bool :=
  (c =? 0) || (c =? 23) || match opLevel c with Some j => Nat.leb j k | None => false end.
Definition gt (s : Z) (k : nat) : Z := default 0 (nt_action s (ntOf k)).

(** The rule for an operator of two operands, for one of one operand and for going up one level. *)
Definition binRule (c : Z) : Z :=
  match c with
  | 3 => 2 | 4 => 3 | 5 => 4 | 6 => 5 | 7 => 11 | 8 => 12 | 9 => 13 | 10 => 14 | 11 => 15 | 12 => 16
  | 13 => 18 | 14 => 19 | 15 => 21 | 16 => 22 | 17 => 24 | 18 => 25 | _ => 26 end.
Definition unRule (c : Z) : Z := match c with 16 => 28 | 20 => 29 | _ => 30 end.
Definition upRule (k : nat) : Z := match k with 0%nat => 1 | 1%nat => 6 | 2%nat => 10 | 3%nat => 17 | 4%nat => 20 | 5%nat => 23 | _ => 27 end.

Definition isRed (s c r : Z) : bool := bool_decide (t_action s c = Some (- r - 1)).
Definition isShift (s c s' : Z) : bool := bool_decide (t_action s c = Some s') && (0 <? s') && negb (s' =? 34).
Definition ruleIs (r l n : Z) : bool := bool_decide (at_ lhs r = Some (25 + l)) && bool_decide (at_ rhs r = Some n).

(** Everything the tables have to provide, for one state, one level and one following token. *)
Definition okUp (s : Z) (k : nat) (c : Z) : bool :=
  if starts s k && follows k c && Nat.ltb k 7 then isRed (gt s (S k)) c (upRule k) && ruleIs (upRule k) (ntOf k) 1 else true.
Definition okBin (s : Z) (k : nat) (c op : Z) : bool :=
  if starts s k && follows k c && bool_decide (opLevel op = Some k) then
    match t_action (gt s k) op with
    | Some s2 => isShift (gt s k) op s2 && starts s2 (S k) && isRed (gt s2 (S k)) c (binRule op)
                 && ruleIs (binRule op) (ntOf k) 3
    | None => false
    end
  else true.
Definition okUn (s : Z) (c op : Z) : bool :=
  if starts s 6 && follows 6 c then
    match t_action s op with
    | Some s2 => isShift s op s2 && starts s2 7 && isRed (gt s2 7) c (unRule op) && ruleIs (unRule op) (ntOf 6) 2
    | None => false
    end
  else true.
Definition okPrim (s c : Z) : bool :=
  if starts s 7 && follows 7 c then
    isShift s 1 5 && isRed 5 c 31 && ruleIs 31 (ntOf 7) 1
    && isShift s 22 3 && starts 3 0 && isShift (gt 3 0) 23 24 && isRed 24 c 32 && ruleIs 32 (ntOf 7) 3
  else true.
Definition okStr (s c : Z) : bool :=
  if starts s 1 && follows 1 c then
    isShift s 2 6 && isShift 6 7 30 && isShift 6 8 31 && isShift 30 2 32 && isShift 31 2 33
    && isRed 32 c 8 && isRed 33 c 9 && ruleIs 8 4 3 && ruleIs 9 4 3
    && (match nt_action s 4 with Some s' => isRed s' c 7 | None => false end) && ruleIs 7 2 1
  else true.
Definition okGoto (s : Z) (k : nat) : bool :=
  if starts s k && Nat.leb k 7 then match nt_action s (ntOf k) with Some _ => true | None => false end else true.
Lemma tables : forallb (fun k =>
    zall 61 (fun s => okGoto s k && zall 25 (fun c =>
      okUp s k c && okPrim s c && okStr s c && okUn s c 16 && okUn s c 20 && okUn s c 21 && zall 25 (okBin s k c))))
    (seq 0 8) = true.
Proof. vm_compute. done. Qed.

Lemma starts_range s k : starts s k = true -> 0 <= s < 61.
Proof.
  unfold starts. rewrite existsb_exists. intros ([s' k'] & Hin & H). apply andb_true_iff in H as [H _]. apply Z.eqb_eq in H. cbn [fst] in H. subst s'.
  cbn in Hin. repeat (destruct Hin as [[= <- <-]|Hin]; [lia|]). done.
Qed.
Lemma tables_at s k c : (k < 8)%nat -> starts s k = true -> 0 <= c < 25 ->
  okGoto s k = true /\ okUp s k c = true /\ okPrim s c = true /\ okStr s c = true
  /\ okUn s c 16 = true /\ okUn s c 20 = true /\ okUn s c 21 = true /\ forall op, 0 <= op < 25 -> okBin s k c op = true.
Proof.
  intros Hk Hs Hc. pose proof tables as T. rewrite forallb_forall in T.
  pose proof (T k ltac:(apply in_seq; lia)) as T1. apply starts_range in Hs.
  pose proof (zall_spec _ _ s T1 ltac:(lia)) as T2. cbv beta in T2. apply andb_true_iff in T2 as [T2 T3].
  pose proof (zall_spec _ _ c T3 ltac:(lia)) as T4. cbv beta in T4. rewrite !andb_true_iff in T4.
  destruct T4 as ((((((? & ?) & ?) & ?) & ?) & ?) & T5). split_and!; try done.
  intros op Hop. exact (zall_spec _ _ op T5 ltac:(lia)).
Qed.

Definition reaches (st : pstack) (i : list token) (st' : pstack) (i' : list token) : Prop :=
  exists n, forall fuel, parseP (n + fuel) st i = parseP fuel st' i'.
Definition stopsWith (st : pstack) (i : list token) (r : pres) : Prop :=
  exists n, forall fuel, parseP (n + fuel) st i = r.
Lemma reaches_refl st i : reaches st i st i.
Proof. by exists 0%nat. Qed.
Lemma reaches_trans st i st1 i1 st2 i2 : reaches st i st1 i1 -> reaches st1 i1 st2 i2 -> reaches st i st2 i2.
Proof. intros [n Hn] [m Hm]. exists (n + m)%nat. intros fuel. rewrite <- Nat.add_assoc, Hn. apply Hm. Qed.
Lemma reaches_stops st i st1 i1 r : reaches st i st1 i1 -> stopsWith st1 i1 r -> stopsWith st i r.
Proof. intros [n Hn] [m Hm]. exists (n + m)%nat. intros fuel. rewrite <- Nat.add_assoc, Hn. apply Hm. Qed.

Lemma shift_step s v st t i s' : isShift s (code t) s' = true ->
  reaches ((s, v) :: st) (t :: i) ((s', valueOf t) :: (s, v) :: st) i.
Proof.
  unfold isShift. rewrite !andb_true_iff. intros [[H1%bool_decide_eq_true H2] H3%negb_true_iff].
  exists 1%nat. intros fuel. cbn [parseP Nat.add]. change (hdCode (t :: i)) with (code t). rewrite H1.
  unfold acceptState. rewrite H3, H2. done.
Qed.
Lemma red_step s v st i r : isRed s (hdCode i) r = true -> 0 <= r ->
  match reduce r ((s, v) :: st) with
  | Some (inl st') => reaches ((s, v) :: st) i st' i
  | Some (inr e) => stopsWith ((s, v) :: st) i e
  | None => True
  end.
Proof.
  unfold isRed. rewrite bool_decide_eq_true. intros H Hr.
  assert (forall fuel, parseP (1 + fuel) ((s, v) :: st) i =
     match reduce r ((s, v) :: st) with None => PUndefined | Some (inl st') => parseP fuel st' i | Some (inr e) => e end) as E.
  { intros fuel. cbn [parseP Nat.add]. rewrite H. unfold acceptState.
    destruct (- r - 1 =? 34) eqn:E1; [apply Z.eqb_eq in E1; lia|].
    destruct (0 <? - r - 1) eqn:E2; [apply Z.ltb_lt in E2; lia|].
    destruct (- r - 1 <? 0) eqn:E3; [|apply Z.ltb_ge in E3; lia].
    replace (- (- r - 1) - 1) with r by lia. done. }
  destruct (reduce r ((s, v) :: st)) as [[st'|e]|]; [| |done]; exists 1%nat; exact E.
Qed.

(** What a reduction does with the stack. *)
Lemma reduce_1 r l s1 v1 s0 v0 st s' : ruleIs r l 1 = true -> nt_action s0 l = Some s' -> semantic r v1 VNone VNone = None ->
  reduce r ((s1, v1) :: (s0, v0) :: st) = Some (inl ((s', v1) :: (s0, v0) :: st)).
Proof.
  unfold ruleIs. rewrite andb_true_iff, !bool_decide_eq_true. intros [Hl Hr] Hn Hs. unfold reduce. rewrite Hl, Hr. change (Z.to_nat 1) with 1%nat. 
  cbn -[semantic nt_action terminalCount Z.add Z.sub]. replace (25 + l - terminalCount) with l by (unfold terminalCount; lia).
  rewrite Hn, Hs. done.
Qed.
Definition finishRed (x : option ares) (v1 : value) (s' : Z) (st : pstack) : pstack + pres :=
  match x with
  | None => inl ((s', v1) :: st)
  | Some (ANum z) => inl ((s', VNum z) :: st)
  | Some ADivZero => inr PDivZero
  | Some AUndefined => inr PUndefined
  end.
Lemma reduce_3 r l s3 v3 s2 v2 s1 v1 s0 v0 st s' : ruleIs r l 3 = true -> nt_action s0 l = Some s' ->
  reduce r ((s3, v3) :: (s2, v2) :: (s1, v1) :: (s0, v0) :: st) = Some (finishRed (semantic r v1 v2 v3) v1 s' ((s0, v0) :: st)).
Proof.
  unfold ruleIs. rewrite andb_true_iff, !bool_decide_eq_true. intros [Hl Hr] Hn. unfold reduce. rewrite Hl, Hr. change (Z.to_nat 3) with 3%nat. 
  cbn -[semantic nt_action terminalCount Z.add Z.sub]. replace (25 + l - terminalCount) with l by (unfold terminalCount; lia). rewrite Hn.
  destruct (semantic r v1 v2 v3) as [[]|]; done.
Qed.
Lemma reduce_2 r l s2 v2 s1 v1 s0 v0 st s' : ruleIs r l 2 = true -> nt_action s0 l = Some s' ->
  reduce r ((s2, v2) :: (s1, v1) :: (s0, v0) :: st) = Some (finishRed (semantic r v1 v2 VNone) v1 s' ((s0, v0) :: st)).
Proof.
  unfold ruleIs. rewrite andb_true_iff, !bool_decide_eq_true. intros [Hl Hr] Hn. unfold reduce. rewrite Hl, Hr. change (Z.to_nat 2) with 2%nat. 
  cbn -[semantic nt_action terminalCount Z.add Z.sub]. replace (25 + l - terminalCount) with l by (unfold terminalCount; lia). rewrite Hn.
  destruct (semantic r v1 v2 VNone) as [[]|]; done.
Qed.

(** The semantic actions compute the operators. *)
Lemma ofBool_truth b (P : Prop) `{Decision P} : (b = true <-> P) -> ofBool b = truth P.
Proof. intros HP. unfold ofBool, truth. destruct b, (decide P); try done; exfalso; intuition congruence. Qed.
Lemma semantic_bin op k a b x : level op = Some k -> semantic (binRule (code op)) (VNum a) x (VNum b) = Some (binop op a b).
Proof.
  destruct op; try done; intros _; cbn [code binRule semantic binop]; f_equal;
    try (apply ofBool_truth); rewrite ?andb_true_iff, ?orb_true_iff, ?negb_true_iff, ?Z.eqb_neq, ?Z.eqb_eq, ?Z.ltb_lt, ?Z.leb_le; try lia.
  - destruct ((0 <=? b) && (b <=? 31)) eqn:E.
    + apply andb_true_iff in E as [E1%Z.leb_le E2%Z.leb_le]. rewrite decide_True by lia. by rewrite Z.shiftl_mul_pow2 by lia.
    + rewrite decide_False; [done|]. intros Hb. apply andb_false_iff in E as [E|E]; apply Z.leb_gt in E; lia.
  - destruct ((0 <=? b) && (b <=? 31)) eqn:E.
    + apply andb_true_iff in E as [E1%Z.leb_le E2%Z.leb_le]. rewrite decide_True by lia. by rewrite Z.shiftr_div_pow2 by lia.
    + rewrite decide_False; [done|]. intros Hb. apply andb_false_iff in E as [E|E]; apply Z.leb_gt in E; lia.
  - destruct (b =? 0) eqn:E; [apply Z.eqb_eq in E as ->|apply Z.eqb_neq in E; rewrite decide_False by done]; done.
  - destruct (b =? 0) eqn:E; [apply Z.eqb_eq in E as ->|apply Z.eqb_neq in E; rewrite decide_False by done]; done.
Qed.
Lemma semantic_un op a x y : unary op -> semantic (unRule (code op)) x (VNum a) y = Some (unop op a).
Proof.
  intros [->|[-> | ->]]; cbn [unRule code semantic unop].
  - done.
  - replace (Z.lnot a) with (- a - 1) by (unfold Z.lnot; lia). done.
  - f_equal. apply ofBool_truth. by rewrite Z.eqb_eq.
Qed.

Definition outcomeOf (r : ares) (st : pstack) (i : list token) (s' : Z) (st0 : pstack) (rest : list token) : Prop :=
  match r with
  | ANum z => reaches st i ((s', VNum z) :: st0) rest
  | ADivZero => stopsWith st i PDivZero
  | AUndefined => stopsWith st i PUndefined
  end.

Lemma follows_up k c : follows k c = true -> follows (S k) c = true.
Proof.
  unfold follows. rewrite !orb_true_iff. intros [?|H]; [by left|]. right. destruct (opLevel c); [|done].
  apply Nat.leb_le in H. apply Nat.leb_le. lia.
Qed.
Lemma starts_up s k : starts s k = true -> starts s (S k) = true.
Proof.
  unfold starts. rewrite !existsb_exists. intros (p & Hp & H). exists p. split; [done|].
  apply andb_true_iff in H as [-> H%Nat.leb_le]. apply Nat.leb_le. lia.
Qed.
Lemma starts_le s k j : (k <= j)%nat -> starts s k = true -> starts s j = true.
Proof. induction 1; [done|]. intros. apply starts_up. auto. Qed.
Lemma follows_le k j c : (k <= j)%nat -> follows k c = true -> follows j c = true.
Proof. induction 1; [done|]. intros. apply follows_up. auto. Qed.
Lemma opLevel_code op k : level op = Some k -> opLevel (code op) = Some k.
Proof. by destruct op. Qed.
Lemma goto_ok s k : (k < 8)%nat -> starts s k = true -> nt_action s (ntOf k) = Some (gt s k).
Proof.
  intros Hk Hs. destruct (tables_at s k 0 Hk Hs ltac:(lia)) as (H & _). unfold okGoto in H.
  rewrite Hs in H. assert (Nat.leb k 7 = true) as E by (apply Nat.leb_le; lia). rewrite E in H. cbn [andb] in H.
  unfold gt. by destruct (nt_action s (ntOf k)).
Qed.
Lemma der_level k w e : der k w e -> (k < 8)%nat.
Proof. induction 1; lia. Qed.

Lemma hdCode_lt i : 0 <= hdCode i < 25.
Proof. apply codes_lt, hd_codes. Qed.

Lemma complete k w e : der k w e -> forall s v st rest, starts s k = true -> follows k (hdCode rest) = true ->
  outcomeOf (eval e) ((s, v) :: st) (w ++ rest) (gt s k) ((s, v) :: st) rest.
Proof.
  induction 1 as [z|w e H IH|op w e Hop H IH|k op w1 w2 e1 e2 Hop H1 IH1 H2 IH2|a b|a b|k w e Hk H IH];
    intros s v st rest Hs Hf; pose proof (hdCode_lt rest) as Hc.
  - destruct (tables_at s 7 _ ltac:(lia) Hs Hc) as (_ & _ & T & _). unfold okPrim in T. rewrite Hs, Hf in T. cbn [andb] in T.
    rewrite !andb_true_iff in T. destruct T as (((((((T1 & T2) & T3) & _) & _) & _) & _) & _).
    cbn [eval outcomeOf app]. eapply reaches_trans; [apply (shift_step s v st (NUMBER z) rest 5 T1)|].
    pose proof (red_step 5 (VNum z) ((s, v) :: st) rest 31 T2 ltac:(lia)) as R.
    rewrite (reduce_1 31 (ntOf 7) 5 (VNum z) s v st (gt s 7) T3 (goto_ok s 7 ltac:(lia) Hs) eq_refl) in R. exact R.
  - destruct (tables_at s 7 _ ltac:(lia) Hs Hc) as (_ & _ & T & _). unfold okPrim in T. rewrite Hs, Hf in T. cbn [andb] in T.
    rewrite !andb_true_iff in T. destruct T as ((((((T1 & T2) & T3) & T4) & T5) & T6) & T7).
    assert (forall r, r = eval e -> outcomeOf r ((s, v) :: st) ((LEFT_PAREN :: w ++ [RIGHT_PAREN]) ++ rest) (gt s 7) ((s, v) :: st) rest) as A;
      [|by apply A].
    intros r Er. cbn [app]. rewrite <- app_assoc. cbn [app].
    pose proof (shift_step s v st LEFT_PAREN (w ++ RIGHT_PAREN :: rest) 3 T3) as S1.
    specialize (IH 3 VNone ((s, v) :: st) (RIGHT_PAREN :: rest) T4 eq_refl). rewrite <- Er in IH.
    destruct r as [z| |]; cbn [outcomeOf] in *; [|by eapply reaches_stops|by eapply reaches_stops].
    eapply reaches_trans; [exact S1|]. eapply reaches_trans; [exact IH|].
    eapply reaches_trans; [apply (shift_step _ _ _ RIGHT_PAREN rest 24 T5)|].
    pose proof (red_step 24 VNone ((gt 3 0, VNum z) :: (3, VNone) :: (s, v) :: st) rest 32 T6 ltac:(lia)) as R.
    rewrite (reduce_3 32 (ntOf 7) _ _ _ _ _ _ s v st (gt s 7) T7 (goto_ok s 7 ltac:(lia) Hs)) in R. exact R.
  - destruct (tables_at s 6 _ ltac:(lia) Hs Hc) as (_ & _ & _ & _ & U1 & U2 & U3 & _).
    assert (okUn s (hdCode rest) (code op) = true) as U by (destruct Hop as [->|[-> | ->]]; done). clear U1 U2 U3.
    unfold okUn in U. rewrite Hs, Hf in U. cbn [andb] in U. destruct (t_action s (code op)) as [s2|]; [|done].
    rewrite !andb_true_iff in U. destruct U as (((T1 & T2) & T3) & T4).
    pose proof (shift_step s v st op (w ++ rest) s2 T1) as S1.
    specialize (IH s2 (valueOf op) ((s, v) :: st) rest T2 (follows_up _ _ Hf)).
    cbn [eval app]. destruct (eval e) as [z| |]; cbn [outcomeOf abind] in *; [|by eapply reaches_stops|by eapply reaches_stops].
    pose proof (red_step (gt s2 7) (VNum z) ((s2, valueOf op) :: (s, v) :: st) rest (unRule (code op)) T3 ltac:(destruct Hop as [->|[-> | ->]]; cbn; lia)) as R.
    rewrite (reduce_2 _ (ntOf 6) _ _ _ _ s v st (gt s 6) T4 (goto_ok s 6 ltac:(lia) Hs)), semantic_un in R by done.
    pose proof (reaches_trans _ _ _ _ _ _ S1 IH) as S2.
    destruct (unop op z) as [z'| |]; cbn [finishRed outcomeOf] in *; [by eapply reaches_trans|by eapply reaches_stops|by eapply reaches_stops].
  - pose proof (der_level _ _ _ H1) as Hk. pose proof (der_level _ _ _ H2) as Hk2.
    destruct (tables_at s k _ Hk Hs Hc) as (_ & _ & _ & _ & _ & _ & _ & T).
    specialize (T (code op) (codes_lt _ (code_codes op))). unfold okBin in T. rewrite Hs, Hf, (opLevel_code _ _ Hop) in T.
    rewrite bool_decide_eq_true_2 in T by done. cbn [andb] in T.
    destruct (t_action (gt s k) (code op)) as [s2|]; [|done]. rewrite !andb_true_iff in T. destruct T as (((T1 & T2) & T3) & T4).
    rewrite <- app_assoc. cbn [app].
    assert (follows k (hdCode (op :: w2 ++ rest)) = true) as Hf1.
    { change (hdCode (op :: w2 ++ rest)) with (code op). unfold follows. rewrite (opLevel_code _ _ Hop). rewrite Nat.leb_refl. by rewrite orb_true_r. }
    specialize (IH1 s v st (op :: w2 ++ rest) Hs Hf1).
    cbn [eval]. destruct (eval e1) as [z1| |]; cbn [outcomeOf abind] in *; [|done|done].
    pose proof (shift_step (gt s k) (VNum z1) ((s, v) :: st) op (w2 ++ rest) s2 T1) as S1.
    pose proof (reaches_trans _ _ _ _ _ _ IH1 S1) as S2.
    specialize (IH2 s2 (valueOf op) ((gt s k, VNum z1) :: (s, v) :: st) rest T2 (follows_up _ _ Hf)).
    destruct (eval e2) as [z2| |]; cbn [outcomeOf abind] in *; [|by eapply reaches_stops|by eapply reaches_stops].
    pose proof (reaches_trans _ _ _ _ _ _ S2 IH2) as S3.
    pose proof (red_step (gt s2 (S k)) (VNum z2) ((s2, valueOf op) :: (gt s k, VNum z1) :: (s, v) :: st) rest (binRule (code op)) T3
                  ltac:(destruct op; cbn; lia)) as R.
    rewrite (reduce_3 _ (ntOf k) _ _ _ _ _ _ s v st (gt s k) T4 (goto_ok s k Hk Hs)), (semantic_bin _ k) in R by done.
    destruct (binop op z1 z2) as [z'| |]; cbn [finishRed outcomeOf] in *; [by eapply reaches_trans|by eapply reaches_stops|by eapply reaches_stops].
  - destruct (tables_at s 1 _ ltac:(lia) Hs Hc) as (_ & _ & _ & T & _). unfold okStr in T. rewrite Hs, Hf in T. cbn [andb] in T.
    destruct (nt_action s 4) as [s4|] eqn:E4; [|by rewrite andb_false_r in T].
    rewrite !andb_true_iff in T. destruct T as ((((((((((T1 & T2) & T3) & T4) & T5) & T6) & T7) & T8) & T9) & T10) & T11).
    cbn [eval outcomeOf app truth].
    eapply reaches_trans; [apply (shift_step s v st (STRING a) _ 6 T1)|].
    eapply reaches_trans; [apply (shift_step _ _ _ EQUAL _ 30 T2)|].
    eapply reaches_trans; [apply (shift_step _ _ _ (STRING b) _ 32 T4)|].
    pose proof (red_step 32 (VStr b) ((30, VNone) :: (6, VStr a) :: (s, v) :: st) rest 8 T6 ltac:(lia)) as R.
    rewrite (reduce_3 8 4 _ _ _ _ _ _ s v st s4 T8 E4) in R. cbn [semantic finishRed ofBool] in R.
    eapply reaches_trans; [exact R|].
    pose proof (red_step s4 (VNum (if qeqb a b then 1 else 0)) ((s, v) :: st) rest 7 T10 ltac:(lia)) as R2.
    rewrite (reduce_1 7 2 _ _ s v st (gt s 1) T11 (goto_ok s 1 ltac:(lia) Hs) eq_refl) in R2.
    assert ((if decide (a = b <-> true = true) then 1 else 0) = (if qeqb a b then 1 else 0)) as ->; [|exact R2].
    destruct (qeqb a b) eqn:E; [apply qeqb_spec in E; rewrite decide_True; [done|tauto]|].
    apply qeqb_neq in E. rewrite decide_False; [done|]. intros X. apply E. by apply X.
  - destruct (tables_at s 1 _ ltac:(lia) Hs Hc) as (_ & _ & _ & T & _). unfold okStr in T. rewrite Hs, Hf in T. cbn [andb] in T.
    destruct (nt_action s 4) as [s4|] eqn:E4; [|by rewrite andb_false_r in T].
    rewrite !andb_true_iff in T. destruct T as ((((((((((T1 & T2) & T3) & T4) & T5) & T6) & T7) & T8) & T9) & T10) & T11).
    cbn [eval outcomeOf app truth].
    eapply reaches_trans; [apply (shift_step s v st (STRING a) _ 6 T1)|].
    eapply reaches_trans; [apply (shift_step _ _ _ NOT_EQUAL _ 31 T3)|].
    eapply reaches_trans; [apply (shift_step _ _ _ (STRING b) _ 33 T5)|].
    pose proof (red_step 33 (VStr b) ((31, VNone) :: (6, VStr a) :: (s, v) :: st) rest 9 T7 ltac:(lia)) as R.
    rewrite (reduce_3 9 4 _ _ _ _ _ _ s v st s4 T9 E4) in R. cbn [semantic finishRed ofBool] in R.
    eapply reaches_trans; [exact R|].
    pose proof (red_step s4 (VNum (if negb (qeqb a b) then 1 else 0)) ((s, v) :: st) rest 7 T10 ltac:(lia)) as R2.
    rewrite (reduce_1 7 2 _ _ s v st (gt s 1) T11 (goto_ok s 1 ltac:(lia) Hs) eq_refl) in R2.
    assert ((if decide (a = b <-> false = true) then 1 else 0) = (if negb (qeqb a b) then 1 else 0)) as ->; [|exact R2].
    destruct (qeqb a b) eqn:E; cbn [negb]; [apply qeqb_spec in E; rewrite decide_False; [done|intuition congruence]|].
    apply qeqb_neq in E. rewrite decide_True; [done|]. intuition congruence.
  - destruct (tables_at s k _ ltac:(lia) Hs Hc) as (_ & T & _). unfold okUp in T. rewrite Hs, Hf in T.
    assert (Nat.ltb k 7 = true) as E by (by apply Nat.ltb_lt). rewrite E in T. cbn [andb] in T. apply andb_true_iff in T as [T1 T2].
    specialize (IH s v st rest (starts_up _ _ Hs) (follows_up _ _ Hf)).
    destruct (eval e) as [z| |]; cbn [outcomeOf] in *; [|done|done].
    eapply reaches_trans; [exact IH|].
    pose proof (red_step (gt s (S k)) (VNum z) ((s, v) :: st) rest (upRule k) T1 ltac:(do 7 (destruct k as [|k]; [cbn; lia|]); cbn; lia)) as R.
    rewrite (reduce_1 (upRule k) (ntOf k) _ _ s v st (gt s k) T2 (goto_ok s k ltac:(lia) Hs)) in R; [exact R|].
    do 7 (destruct k as [|k]; [done|]). done.
Qed.

(** The end: the grammar's start symbol. *)
Definition isAccept (s c : Z) : bool := bool_decide (t_action s c = Some 34).
Lemma tables_end : isRed (gt 0 0) 0 0 && ruleIs 0 0 1 && bool_decide (nt_action 0 0 = Some 7) && isAccept 7 0 && starts 0 0 = true.
Proof. vm_compute. done. Qed.
Lemma complete_all w e : sentence w e -> stopsWith [(0, VNone)] w (result (eval e)).
Proof.
  intros H. pose proof tables_end as T. rewrite !andb_true_iff in T. destruct T as ((((T1 & T2) & T3) & T4) & T5).
  apply bool_decide_eq_true in T3. apply bool_decide_eq_true in T4.
  pose proof (complete 0 w e H 0 VNone [] [] T5 eq_refl) as C. rewrite app_nil_r in C.
  destruct (eval e) as [z| |]; cbn [outcomeOf result] in *; [|done|done].
  eapply reaches_stops; [exact C|].
  pose proof (red_step (gt 0 0) (VNum z) [(0, VNone)] [] 0 T1 ltac:(lia)) as R.
  rewrite (reduce_1 0 0 _ _ 0 VNone [] 7 T2 T3 eq_refl) in R. eapply reaches_stops; [exact R|].
  exists 1%nat. intros fuel. cbn [parseP Nat.add]. change (hdCode []) with 0. rewrite T4. done.
Qed.

(** ** It always ends *)
Definition stateRank (s : Z) : Z :=
  default 10 (find (fun j => existsb (fun s0 => bool_decide (nt_action s0 j = Some s)) states) (map Z.of_nat (seq 0 11))).
(** What is needed of the tables: nothing but states is entered; the end of the input is never shifted; a
    reduction of one symbol goes to a state of lower rank. *)
Definition okAction (s c : Z) : bool :=
  if s =? 34 then true else
  match t_action s c with
  | None => false
  | Some a =>
    if a =? 34 then true
    else if 0 <? a then (a <? 61) && negb (c =? 0)
    else if a <? 0 then
      let r := - a - 1 in
      match at_ rhs r, at_ lhs r with
      | Some n, Some l =>
        (1 <=? n) && (n <=? 3) && (25 <=? l) && (l <? 35) && (if n =? 1 then l - 25 <? stateRank s else true)
      | _, _ => false
      end
    else true
  end.
Definition okGo (s j : Z) : bool :=
  match nt_action s j with Some s' => (0 <=? s') && (s' <? 61) && negb (s' =? 34) && (stateRank s' <=? j) | None => true end.
Lemma tables_term : zall 61 (fun s => zall 25 (okAction s) && zall 11 (okGo s)
    && (0 <=? stateRank s) && (stateRank s <=? 10)) = true.
Proof. vm_compute. done. Qed.

Definition inRange (s : Z) : Prop := 0 <= s < 61 /\ s <> 34.
Lemma action_ok s c : inRange s -> 0 <= c < 25 -> okAction s c = true.
Proof.
  intros Hs Hc. pose proof (zall_spec _ _ s tables_term ltac:(unfold inRange in *; lia)) as T. cbv beta in T. rewrite !andb_true_iff in T.
  destruct T as (((T & _) & _) & _). exact (zall_spec _ _ c T ltac:(lia)).
Qed.
Lemma go_ok s j : inRange s -> 0 <= j < 11 -> okGo s j = true.
Proof.
  intros Hs Hc. pose proof (zall_spec _ _ s tables_term ltac:(unfold inRange in *; lia)) as T. cbv beta in T. rewrite !andb_true_iff in T.
  destruct T as (((_ & T) & _) & _). exact (zall_spec _ _ j T ltac:(lia)).
Qed.
Lemma rank_ok s : inRange s -> 0 <= stateRank s <= 10.
Proof.
  intros Hs. pose proof (zall_spec _ _ s tables_term ltac:(unfold inRange in *; lia)) as T. cbv beta in T. rewrite !andb_true_iff in T.
  destruct T as (((_ & _) & T1%Z.leb_le) & T2%Z.leb_le). lia.
Qed.

Definition topRank (st : pstack) : Z := match st with (s, _) :: _ => stateRank s | [] => 0 end.
Definition measure (st : pstack) (i : list token) : Z :=
  24 * Z.of_nat (length i) + 12 * Z.of_nat (length st) + topRank st.
Definition inRanges (st : pstack) : Prop := Forall (fun p => inRange (fst p)) st.

Lemma reduce_shape r n l st st' : at_ rhs r = Some n -> at_ lhs r = Some l -> reduce r st = Some (inl st') ->
  exists s0 v0 st0 s' v', skipn (Z.to_nat n) st = (s0, v0) :: st0 /\ nt_action s0 (l - 25) = Some s' /\ st' = (s', v') :: (s0, v0) :: st0.
Proof.
  intros Hn Hl. unfold reduce. rewrite Hn, Hl. unfold terminalCount.
  destruct (skipn (Z.to_nat n) st) as [|[s0 v0] st0]; [done|].
  destruct (nt_action s0 (l - 25)) as [s'|] eqn:E; [|done].
  destruct (semantic _ _ _ _) as [[]|]; intros [= <-]; eauto 10.
Qed.

Lemma terminates fuel st i : inRanges st -> measure st i < Z.of_nat fuel -> parseP fuel st i <> PFuel.
Proof.
  revert st i. induction fuel as [|fuel IH]; intros st i Hr Hm.
  { exfalso. unfold measure in Hm. assert (0 <= topRank st); [|lia].
    destruct st as [|[s v] st]; cbn; [lia|]. apply rank_ok. by apply Forall_inv in Hr. }
  cbn [parseP]. destruct st as [|[s v] st]; [done|].
  pose proof (Forall_inv Hr) as Hs. cbn [fst] in Hs.
  pose proof (action_ok s (hdCode i) Hs (hdCode_lt i)) as A. unfold okAction in A.
  assert ((s =? 34) = false) as E34 by (apply Z.eqb_neq; apply Hs). rewrite E34 in A.
  destruct (t_action s (hdCode i)) as [a|] eqn:Ea; [|done]. unfold acceptState.
  destruct (a =? 34) eqn:Ea34; [by destruct (valueAt _ _)|]. apply Z.eqb_neq in Ea34. destruct (0 <? a) eqn:E0.
  - apply andb_true_iff in A as [A1%Z.ltb_lt A2%negb_true_iff%Z.eqb_neq]. apply Z.ltb_lt in E0.
    destruct i as [|t i]; [done|]. cbn [tail]. apply IH.
    + constructor; [unfold inRange; cbn; lia|done].
    + unfold measure in *. cbn [length topRank] in *. pose proof (rank_ok a ltac:(unfold inRange; lia)). pose proof (rank_ok s Hs). lia.
  - destruct (a <? 0) eqn:E1; [|done].
    destruct (at_ rhs (- a - 1)) as [n|] eqn:En; [|done]. destruct (at_ lhs (- a - 1)) as [l|] eqn:El; [|done].
    destruct (reduce (- a - 1) ((s, v) :: st)) as [[st'|e]|] eqn:Er; [| |done].
    2: { revert Er. unfold reduce. rewrite En, El. destruct (skipn _ _) as [|[s0 v0] ?]; [done|].
         destruct (nt_action _ _); [|done]. destruct (semantic _ _ _ _) as [[]|]; intros [= <-]; done. }
    rewrite !andb_true_iff in A. destruct A as ((((A1%Z.leb_le & A2%Z.leb_le) & A3%Z.leb_le) & A4%Z.ltb_lt) & A5).
    destruct (reduce_shape _ _ _ _ _ En El Er) as (s0 & v0 & st0 & s' & v' & H1 & H2 & ->).
    assert (inRanges ((s0, v0) :: st0)) as Hr0.
    { rewrite <- H1. by apply Forall_drop. }
    pose proof (Forall_inv Hr0) as Hs0. cbn [fst] in Hs0.
    pose proof (go_ok s0 (l - 25) Hs0 ltac:(lia)) as G. unfold okGo in G. rewrite H2 in G.
    rewrite !andb_true_iff in G. destruct G as (((G1%Z.leb_le & G2%Z.ltb_lt) & G4%negb_true_iff%Z.eqb_neq) & G3%Z.leb_le).
    apply IH; [constructor; [unfold inRange; cbn; lia|done]|].
    assert (length ((s0, v0) :: st0) = length ((s, v) :: st) - Z.to_nat n)%nat as Hl by (rewrite <- H1; apply drop_length).
    unfold measure in *. cbn [length topRank] in *. pose proof (rank_ok s Hs).
    destruct (n =? 1) eqn:E2.
    + apply Z.eqb_eq in E2. subst n. apply Z.ltb_lt in A5. change (Z.to_nat 1) with 1%nat in Hl. lia.
    + apply Z.eqb_neq in E2. lia.
Qed.

Lemma parse_mono fuel m st i : parseP fuel st i <> PFuel -> parseP (fuel + m) st i = parseP fuel st i.
Proof.
  revert st i. induction fuel as [|fuel IH]; intros st i; [done|]. cbn [parseP Nat.add].
  destruct st as [|[s v] st]; [done|]. destruct (t_action _ _) as [a|]; [|done]. destruct (a =? acceptState); [done|].
  destruct (0 <? a); [apply IH|]. destruct (a <? 0); [|done]. destruct (reduce _ _) as [[st'|e]|]; [apply IH|done|done].
Qed.
Lemma parse_is i : parse i = parseP (40 + 40 * length i) [(0, VNone)] i.
Proof. unfold parse. by rewrite parse_pending. Qed.
Lemma parse_terminates i : parse i <> PFuel.
Proof.
  rewrite parse_is. apply terminates.
  - constructor; [unfold inRange; cbn; lia|constructor].
  - unfold measure. cbn [length topRank]. pose proof (rank_ok 0 ltac:(unfold inRange; lia)). lia.
Qed.
Lemma parse_stops i r : stopsWith [(0, VNone)] i r -> parse i = r.
Proof.
  intros [n Hn]. pose proof (parse_terminates i) as T. rewrite parse_is in *.
  rewrite <- (parse_mono _ n _ _ T). rewrite Nat.add_comm. apply Hn.
Qed.
Lemma parse_complete w e : sentence w e -> parse w = result (eval e).
Proof. intros. by apply parse_stops, complete_all. Qed.

(** ** Soundness *)
Inductive sym := ST (c : Z) | SN (j : Z).
Global Instance sym_eq_dec : EqDecision sym.
Proof. solve_decision. Defined.
(** The moves between states: reading a token, and after a reduction in a state that may start such a term. *)
Definition startsNt (s j : Z) : bool :=
  match j with
  | 0 => s =? 0 | 1 => starts s 0 | 2 => starts s 1 | 3 => starts s 2 | 4 => starts s 1 | 5 => starts s 3
  | 6 => starts s 4 | 7 => starts s 5 | 8 => starts s 6 | 9 => starts s 7 | _ => false
  end.
Definition trans : list (Z * sym * Z) := Eval vm_compute in
  flat_map (fun s =>
    flat_map (fun c => match t_action s c with
                       | Some a => if (0 <? a) && negb (a =? 34) then [(s, ST c, a)] else [] | None => [] end) codes
    ++ flat_map (fun j => if startsNt s j then match nt_action s j with Some s' => [(s, SN j, s')] | None => [] end else [])
         (map Z.of_nat (seq 0 10))) states.

Inductive kind := KStart | KUp (k : nat) | KBin (op : token) (k : nat) | KUn (op : token) | KNum | KParen | KStr (eq : bool) | KS.
Definition kinds : list kind :=
  [KStart; KUp 0; KBin BOOL_AND 0; KBin BOOL_OR 0; KBin BIT_AND 0; KBin BIT_OR 0; KUp 1; KS; KStr true; KStr false; KUp 2;
   KBin EQUAL 2; KBin NOT_EQUAL 2; KBin LESS_THAN 2; KBin GREATER_THAN 2; KBin EQUAL_OR_LESS_THAN 2; KBin EQUAL_OR_GREATER_THAN 2;
   KUp 3; KBin SHIFT_LEFT 3; KBin SHIFT_RIGHT 3; KUp 4; KBin PLUS 4; KBin MINUS 4; KUp 5; KBin MULT 5; KBin DIV 5; KBin MOD 5;
   KUp 6; KUn MINUS; KUn BIT_NOT; KUn BOOL_NOT; KNum; KParen].
(** The symbols of a rule, last one first. *)
Definition kindSyms (x : kind) : list sym :=
  match x with
  | KStart => [SN 1] | KUp k => [SN (ntOf (S k))] | KBin op k => [SN (ntOf (S k)); ST (code op); SN (ntOf k)]
  | KUn op => [SN 9; ST (code op)] | KNum => [ST 1] | KParen => [ST 23; SN 1; ST 22]
  | KStr b => [ST 2; ST (if b then 7 else 8); ST 2] | KS => [SN 4]
  end.
Definition kindLhs (x : kind) : Z :=
  match x with
  | KStart => 0 | KUp k => ntOf k | KBin _ k => ntOf k | KUn _ => 8 | KNum | KParen => 9 | KStr _ => 4 | KS => 2
  end.
Fixpoint back (syms : list sym) (s : Z) (P : Z -> bool) : bool :=
  match syms with
  | [] => P s
  | X :: syms' => negb (s =? 0) && forallb (fun '(s0, Y, s') => if s' =? s then bool_decide (X = Y) && back syms' s0 P else true) trans
  end.
Definition inTrans (s : Z) (X : sym) (s' : Z) : bool := existsb (fun t => bool_decide (t = (s, X, s'))) trans.
Definition okRed (s c : Z) : bool :=
  if s =? 34 then true else
  match t_action s c with
  | Some a =>
    if a <? 0 then
      let r := - a - 1 in
      match nth_error kinds (Z.to_nat r) with
      | Some x => ruleIs r (kindLhs x) (Z.of_nat (length (kindSyms x)))
                  && back (kindSyms x) s (fun s0 => match nt_action s0 (kindLhs x) with
                                                    | Some s' => inTrans s0 (SN (kindLhs x)) s' | None => false end)
      | None => false
      end
    else if a =? 34 then (c =? 0) && back [SN 0] s (fun s0 => s0 =? 0)
    else true
  | None => false
  end.
Lemma tables_sound : zall 61 (fun s => zall 25 (okRed s)) = true.
Proof. vm_compute. done. Qed.

(** What a symbol on the stack stands for: the tokens it was read from and its value. *)
Definition levelOf (j : Z) : nat :=
  match j with 0 => 0%nat | 1 => 0%nat | 2 => 1%nat | 3 => 2%nat | 4 => 1%nat | 5 => 3%nat | 6 => 4%nat | 7 => 5%nat | 8 => 6%nat | _ => 7%nat end.
Definition derS (X : sym) (w : list token) (v : value) : Prop :=
  match X with
  | ST c => exists t, w = [t] /\ code t = c /\ v = valueOf t
  | SN j => exists e z, der (levelOf j) w e /\ eval e = ANum z /\ v = VNum z
  end.
Inductive okstk : pstack -> list token -> Prop :=
| ok_bottom : okstk [(0, VNone)] []
| ok_push s v0 st u X s' w v : okstk ((s, v0) :: st) u -> (s, X, s') ∈ trans -> derS X w v ->
    okstk ((s', v) :: (s, v0) :: st) (u ++ w).

Lemma trans_range : forallb (fun '(s, X, s') => (0 <=? s') && (s' <? 61) && negb (s' =? 34) && negb (s' =? 0)) trans = true.
Proof. vm_compute. done. Qed.
Lemma okstk_range st u : okstk st u -> exists s v st0, st = (s, v) :: st0 /\ inRange s.
Proof.
  destruct 1 as [|s v0 st u X s' w v H Ht Hd]; eexists _, _, _; (split; [reflexivity|]); unfold inRange; [lia|].
  pose proof trans_range as T. rewrite forallb_forall in T. specialize (T _ (proj1 (elem_of_list_In _ _) Ht)). cbn in T.
  rewrite !andb_true_iff in T. destruct T as (((T1%Z.leb_le & T2%Z.ltb_lt) & T3%negb_true_iff%Z.eqb_neq) & _). lia.
Qed.

Lemma back_step X syms s P v st u : back (X :: syms) s P = true -> okstk ((s, v) :: st) u ->
  exists s0 v0 st0 u0 w, st = (s0, v0) :: st0 /\ u = u0 ++ w /\ okstk ((s0, v0) :: st0) u0 /\ derS X w v /\ back syms s0 P = true.
Proof.
  cbn [back]. intros [H1%negb_true_iff%Z.eqb_neq H2]%andb_true_iff H. inversion H as [|s0 v0 st0 u0 Y s' w v' Hs Ht Hd]; subst; [done|].
  rewrite forallb_forall in H2. specialize (H2 _ (proj1 (elem_of_list_In _ _) Ht)). cbv beta iota in H2. rewrite Z.eqb_refl in H2.
  apply andb_true_iff in H2 as [->%bool_decide_eq_true H2]. eexists _, _, _, _, _. split_and!; done.
Qed.

(** A part of the input whose evaluation fails. *)
Definition faulty (r : ares) (i : list token) : Prop :=
  exists a w b k e, i = a ++ w ++ b /\ der k w e /\ eval e = r.

Lemma tok_code t c t' : code t = c -> code t' = c -> level t' <> None \/ unary t' \/ t' = LEFT_PAREN \/ t' = RIGHT_PAREN -> t = t'.
Proof.
  intros <- H Ht. destruct t'; cbn in H; destruct t; cbn in H; try discriminate H; try reflexivity; exfalso;
    cbn in Ht; unfold unary in Ht; intuition congruence.
Qed.
Lemma ntOf_level k : (k < 8)%nat -> levelOf (ntOf k) = k.
Proof. intros. do 8 (destruct k as [|k]; [done|]). lia. Qed.
Definition kindOk (x : kind) : Prop :=
  match x with KUp k => (k < 7)%nat | KBin op k => level op = Some k /\ (k < 7)%nat | KUn op => unary op | _ => True end.
Lemma kinds_ok r x : nth_error kinds (Z.to_nat r) = Some x -> 0 <= r -> kindOk x /\
  forall v1 v2 v3,
  semantic r v1 v2 v3 =
    match x with
    | KStart | KUp _ | KNum | KS => None
    | KBin op _ => semantic (binRule (code op)) v1 v2 v3
    | KUn op => semantic (unRule (code op)) v1 v2 v3
    | KParen => Some (match v2 with VNum a => ANum a | _ => AUndefined end)
    | KStr b => Some (match v1, v3 with VStr a, VStr b' => ofBool (if b then qeqb a b' else negb (qeqb a b')) | _, _ => AUndefined end)
    end.
Proof.
  intros H Hr. replace r with (Z.of_nat (Z.to_nat r)) by lia. revert H. generalize (Z.to_nat r). clear. intros n H.
  do 33 (destruct n as [|n]; [injection H as <-; split; [cbn; unfold unary; try split; try done; try lia; tauto|intros; reflexivity]|]).
  by destruct n.
Qed.

(** One reduction: either the new symbol stands for the tokens of the old ones, or a part was faulty. *)
Lemma reduce_sound s c a v st u : okstk ((s, v) :: st) u -> 0 <= c < 25 -> t_action s c = Some a -> a < 0 ->
  exists x, reduce (- a - 1) ((s, v) :: st) = Some x /\
    match x with inl st' => okstk st' u | inr e => (e = PDivZero /\ faulty ADivZero u) \/ (e = PUndefined /\ faulty AUndefined u) end.
Proof.
  intros Hok Hc Ha Hneg. destruct (okstk_range _ _ Hok) as (s' & v' & st' & [= <- <- <-] & Hs).
  pose proof (zall_spec _ _ s tables_sound ltac:(unfold inRange in *; lia)) as T.
  pose proof (zall_spec _ _ c T ltac:(lia)) as R. unfold okRed in R.
  assert ((s =? 34) = false) as E34 by (apply Z.eqb_neq; apply Hs). rewrite E34, Ha in R. clear T E34.
  assert ((a <? 0) = true) as E0 by (by apply Z.ltb_lt). rewrite E0 in R.
  destruct (nth_error kinds (Z.to_nat (- a - 1))) as [x|] eqn:Ex; [|done]. apply andb_true_iff in R as [R B].
  destruct (kinds_ok _ _ Ex ltac:(lia)) as [Hk Hsem]. clear Ex.
  set (r := - a - 1) in *. clearbody r.
  assert (Hgo : forall s0 v0 st0 u0, okstk ((s0, v0) :: st0) u0 ->
     (match nt_action s0 (kindLhs x) with Some s' => inTrans s0 (SN (kindLhs x)) s' | None => false end) = true ->
     exists s1, nt_action s0 (kindLhs x) = Some s1 /\
       forall w e z, der (levelOf (kindLhs x)) w e -> eval e = ANum z -> okstk ((s1, VNum z) :: (s0, v0) :: st0) (u0 ++ w)).
  { intros s0 v0 st0 u0 H0 HB. destruct (nt_action s0 (kindLhs x)) as [s1|] eqn:E1; [|done].
    unfold inTrans in HB. rewrite existsb_exists in HB. destruct HB as (y & Hy & ->%bool_decide_eq_true).
    exists s1. split; [done|]. intros w e z Hd He. eapply ok_push; [done|by apply elem_of_list_In|]. exists e, z. done. }
  destruct x as [|k|op k|op| | |b|]; cbn [kindSyms kindLhs kindOk] in *.
  - (* the start symbol *)
    destruct (back_step _ _ _ _ _ _ _ B Hok) as (s0 & v0 & st0 & u0 & w & -> & -> & H0 & (e & z & He & Hz & ->) & B1). cbn [back] in B1.
    destruct (Hgo _ _ _ _ H0 B1) as (s1 & E1 & Hp).
    rewrite (reduce_1 r 0 s _ s0 v0 st0 s1 R E1) by (by rewrite Hsem). eexists. split; [done|]. by eapply Hp.
  - destruct (back_step _ _ _ _ _ _ _ B Hok) as (s0 & v0 & st0 & u0 & w & -> & -> & H0 & (e & z & He & Hz & ->) & B1). cbn [back] in B1.
    destruct (Hgo _ _ _ _ H0 B1) as (s1 & E1 & Hp).
    rewrite (reduce_1 r (ntOf k) s _ s0 v0 st0 s1 R E1) by (by rewrite Hsem). eexists. split; [done|]. eapply Hp; [|done].
    rewrite ntOf_level in * by lia. by apply d_up.
  - destruct Hk as [Hop Hk].
    destruct (back_step _ _ _ _ _ _ _ B Hok) as (s2 & v2 & st2 & u2 & w3 & -> & -> & H2 & (e3 & z3 & He3 & Hz3 & ->) & B1).
    destruct (back_step _ _ _ _ _ _ _ B1 H2) as (s1 & v1 & st1 & u1 & w2 & -> & -> & H1 & (t & -> & Ht & ->) & B2).
    destruct (back_step _ _ _ _ _ _ _ B2 H1) as (s0 & v0 & st0 & u0 & w1 & -> & -> & H0 & (e1 & z1 & He1 & Hz1 & ->) & B3). cbn [back] in B3.
    assert (t = op) as -> by (eapply tok_code; [exact Ht|done|left; congruence]).
    destruct (Hgo _ _ _ _ H0 B3) as (s' & E1 & Hp).
    rewrite (reduce_3 r (ntOf k) _ _ _ _ _ _ s0 v0 st0 s' R E1). rewrite Hsem, (semantic_bin op k) by done.
    rewrite ntOf_level in * by lia.
    assert (der k (w1 ++ [op] ++ w3) (EBin op e1 e3)) as Hd by (by apply d_bin).
    assert (eval (EBin op e1 e3) = binop op z1 z3) as Hev by (cbn [eval]; rewrite Hz1, Hz3; done).
    rewrite <- !app_assoc. eexists. split; [done|]. destruct (binop op z1 z3) as [z| |]; cbn [finishRed].
    + by eapply Hp.
    + left. split; [done|]. exists u0, (w1 ++ [op] ++ w3), [], k, (EBin op e1 e3). rewrite app_nil_r. done.
    + right. split; [done|]. exists u0, (w1 ++ [op] ++ w3), [], k, (EBin op e1 e3). rewrite app_nil_r. done.
  - destruct (back_step _ _ _ _ _ _ _ B Hok) as (s1 & v1 & st1 & u1 & w2 & -> & -> & H1 & (e & z & He & Hz & ->) & B1).
    destruct (back_step _ _ _ _ _ _ _ B1 H1) as (s0 & v0 & st0 & u0 & w1 & -> & -> & H0 & (t & -> & Ht & ->) & B2). cbn [back] in B2.
    assert (t = op) as -> by (eapply tok_code; [exact Ht|done|by right; left]).
    destruct (Hgo _ _ _ _ H0 B2) as (s' & E1 & Hp).
    rewrite (reduce_2 r 8 _ _ _ _ s0 v0 st0 s' R E1). rewrite Hsem, semantic_un by done.
    assert (der 6 ([op] ++ w2) (EUn op e)) as Hd by (by apply d_un).
    assert (eval (EUn op e) = unop op z) as Hev by (cbn [eval]; rewrite Hz; done).
    rewrite <- !app_assoc. eexists. split; [done|]. destruct (unop op z) as [z'| |]; cbn [finishRed].
    + by eapply Hp.
    + left. split; [done|]. exists u0, ([op] ++ w2), [], 6%nat, (EUn op e). rewrite app_nil_r. done.
    + right. split; [done|]. exists u0, ([op] ++ w2), [], 6%nat, (EUn op e). rewrite app_nil_r. done.
  - destruct (back_step _ _ _ _ _ _ _ B Hok) as (s0 & v0 & st0 & u0 & w & -> & -> & H0 & (t & -> & Ht & ->) & B1). cbn [back] in B1.
    destruct (Hgo _ _ _ _ H0 B1) as (s1 & E1 & Hp). destruct t; try discriminate Ht.
    rewrite (reduce_1 r 9 s _ s0 v0 st0 s1 R E1) by (by rewrite Hsem). eexists. split; [done|]. eapply Hp; [apply d_num|done].
  - destruct (back_step _ _ _ _ _ _ _ B Hok) as (s2 & v2 & st2 & u2 & w3 & -> & -> & H2 & (t3 & -> & Ht3 & ->) & B1).
    destruct (back_step _ _ _ _ _ _ _ B1 H2) as (s1 & v1 & st1 & u1 & w2 & -> & -> & H1 & (e & z & He & Hz & ->) & B2).
    destruct (back_step _ _ _ _ _ _ _ B2 H1) as (s0 & v0 & st0 & u0 & w1 & -> & -> & H0 & (t1 & -> & Ht1 & ->) & B3). cbn [back] in B3.
    assert (t3 = RIGHT_PAREN) as -> by (eapply tok_code; [exact Ht3|done|tauto]).
    assert (t1 = LEFT_PAREN) as -> by (eapply tok_code; [exact Ht1|done|tauto]).
    destruct (Hgo _ _ _ _ H0 B3) as (s' & E1 & Hp).
    rewrite (reduce_3 r 9 _ _ _ _ _ _ s0 v0 st0 s' R E1). rewrite Hsem. cbn [finishRed].
    rewrite <- !app_assoc. eexists. split; [done|]. eapply Hp; [|done]. by apply d_paren.
  - destruct (back_step _ _ _ _ _ _ _ B Hok) as (s2 & v2 & st2 & u2 & w3 & -> & -> & H2 & (t3 & -> & Ht3 & ->) & B1).
    destruct (back_step _ _ _ _ _ _ _ B1 H2) as (s1 & v1 & st1 & u1 & w2 & -> & -> & H1 & (t2 & -> & Ht2 & ->) & B2).
    destruct (back_step _ _ _ _ _ _ _ B2 H1) as (s0 & v0 & st0 & u0 & w1 & -> & -> & H0 & (t1 & -> & Ht1 & ->) & B3). cbn [back] in B3.
    destruct (Hgo _ _ _ _ H0 B3) as (s' & E1 & Hp).
    destruct t3 as [|y| | | | | | | | | | | | | | | | | | | | | |]; try discriminate Ht3. destruct t1 as [|x| | | | | | | | | | | | | | | | | | | | | |]; try discriminate Ht1.
    rewrite (reduce_3 r 4 _ _ _ _ _ _ s0 v0 st0 s' R E1). rewrite Hsem. cbn [finishRed valueOf ofBool].
    rewrite <- !app_assoc. eexists. split; [done|]. destruct b.
    + assert (t2 = EQUAL) as -> by (eapply tok_code; [exact Ht2|done|by left]).
      eapply Hp; [apply d_streq|]. cbn [eval]. unfold truth. f_equal. destruct (qeqb x y) eqn:E.
      * apply qeqb_spec in E. rewrite decide_True; [done|tauto].
      * apply qeqb_neq in E. rewrite decide_False; [done|]. intros X. apply E. by apply X.
    + assert (t2 = NOT_EQUAL) as -> by (eapply tok_code; [exact Ht2|done|by left]).
      eapply Hp; [apply d_strne|]. cbn [eval]. unfold truth. f_equal. destruct (qeqb x y) eqn:E; cbn [negb].
      * apply qeqb_spec in E. rewrite decide_False; [done|intuition congruence].
      * apply qeqb_neq in E. rewrite decide_True; [done|intuition congruence].
  - destruct (back_step _ _ _ _ _ _ _ B Hok) as (s0 & v0 & st0 & u0 & w & -> & -> & H0 & (e & z & He & Hz & ->) & B1). cbn [back] in B1.
    destruct (Hgo _ _ _ _ H0 B1) as (s1 & E1 & Hp).
    rewrite (reduce_1 r 2 s _ s0 v0 st0 s1 R E1) by (by rewrite Hsem). eexists. split; [done|]. by eapply Hp.
Qed.

(** A shift is one of the moves. *)
Definition okShift (s c : Z) : bool :=
  if s =? 34 then true else
  match t_action s c with
  | Some a => if (0 <? a) && negb (a =? 34) then negb (c =? 0) && inTrans s (ST c) a else true
  | None => false
  end.
Lemma tables_shift : zall 61 (fun s => zall 25 (okShift s)) = true.
Proof. vm_compute. done. Qed.

Definition sound (i : list token) (r : pres) : Prop :=
  match r with
  | PValue z => exists e, sentence i e /\ eval e = ANum z
  | PDivZero => faulty ADivZero i
  | PUndefined => faulty AUndefined i
  | PSyntax | PFuel => True
  end.
Lemma faulty_app r u i : faulty r u -> faulty r (u ++ i).
Proof. intros (a & w & b & k & e & -> & H). exists a, w, (b ++ i), k, e. by rewrite <- !app_assoc. Qed.
Lemma parse_sound fuel st u i : okstk st u -> sound (u ++ i) (parseP fuel st i).
Proof.
  revert st u i. induction fuel as [|fuel IH]; intros st u i Hok; [done|].
  destruct (okstk_range _ _ Hok) as (s & v & st0 & -> & Hs). cbn [parseP].
  pose proof (hdCode_lt i) as Hc.
  assert ((s =? 34) = false) as E34 by (apply Z.eqb_neq; apply Hs).
  pose proof (zall_spec _ _ s tables_sound ltac:(unfold inRange in *; lia)) as T.
  pose proof (zall_spec _ _ (hdCode i) T ltac:(lia)) as R. unfold okRed in R. rewrite E34 in R.
  pose proof (zall_spec _ _ s tables_shift ltac:(unfold inRange in *; lia)) as T'.
  pose proof (zall_spec _ _ (hdCode i) T' ltac:(lia)) as S. unfold okShift in S. rewrite E34 in S. clear T T' E34.
  destruct (t_action s (hdCode i)) as [a|] eqn:Ea; [|done]. unfold acceptState.
  destruct (a =? 34) eqn:E1.
  - apply Z.eqb_eq in E1. subst a. change (34 <? 0) with false in R. cbv beta iota in R. apply andb_true_iff in R as [R1%Z.eqb_eq R2].
    destruct (back_step _ _ _ _ _ _ _ R2 Hok) as (s0 & v0 & st1 & u0 & w & -> & -> & H0 & (e & z & He & Hz & ->) & B). cbn [back] in B.
    apply Z.eqb_eq in B. subst s0. cbn [valueAt nth_error sound].
    assert (i = []) as ->. { destruct i as [|t i]; [done|]. by destruct t. }
    inversion H0 as [|? ? ? ? ? ? ? ? ? Ht]; subst.
    + rewrite app_nil_r. cbn [app]. exists e. done.
    + exfalso. pose proof trans_range as T. rewrite forallb_forall in T. specialize (T _ (proj1 (elem_of_list_In _ _) Ht)).
      cbn in T. done.
  - destruct (0 <? a) eqn:E2.
    + cbn [andb negb] in S. apply andb_true_iff in S as [S1%negb_true_iff%Z.eqb_neq S2].
      destruct i as [|t i]; [done|]. cbn [hdVal tail]. unfold inTrans in S2. rewrite existsb_exists in S2.
      destruct S2 as (y & Hy & ->%bool_decide_eq_true).
      assert (sound ((u ++ [t]) ++ i) (parseP fuel ((a, valueOf t) :: (s, v) :: st0) i)) as X.
      { apply IH. eapply ok_push; [done|by apply elem_of_list_In|]. by exists t. }
      by rewrite <- app_assoc in X.
    + destruct (a <? 0) eqn:E3; [|done]. apply Z.ltb_lt in E3.
      destruct (reduce_sound _ _ _ _ _ _ Hok Hc Ea E3) as (x & -> & Hx). destruct x as [st'|e]; [by apply IH|].
      destruct Hx as [[-> Hx]|[-> Hx]]; by apply faulty_app.
Qed.
Lemma parse_sound_all i : sound i (parse i).
Proof. rewrite parse_is. apply (parse_sound _ [(0, VNone)] [] i). constructor. Qed.
