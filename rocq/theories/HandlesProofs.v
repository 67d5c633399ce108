(** Lemmas about handles. *)
From stdpp Require Import prelude gmap.
From RecordUpdate Require Import RecordSet.
Import RecordSetNotations.
From Verif Require Import Handles TempSpec HandlesSpec.

(** The variables whose handles a child may inherit. *)
Definition inhOf (x : slot) : bool := match x with InR | OutW | ErrW => true | _ => false end.

(** ** Every handle is closed at most once, and only after it was opened *)

Record good (s : hstate) : Prop := Good {
  g_inj : forall k k' h, h_slots s !! k = Some h -> h_slots s !! k' = Some h -> k = k';
  g_open : forall k h, h_slots s !! k = Some h -> h_open s !! h = Some (inhOf k.2);
  g_next : forall h b, h_open s !! h = Some b -> h < h_next s;
  g_opened : forall h b, h_open s !! h = Some b -> HOpen h b ∈ h_log s;
  g_closed : forall h, HClose h ∈ h_log s -> h < h_next s /\ h_open s !! h = None;
  g_once : forall k k' h, h_log s !! k = Some (HClose h) -> h_log s !! k' = Some (HClose h) -> k = k';
  g_before : forall k h, h_log s !! k = Some (HClose h) -> exists b, earlier (h_log s) k (HOpen h b);
  g_acc : forall h b, HOpen h b ∈ h_log s -> h_open s !! h = Some b \/ HClose h ∈ h_log s;
  g_fresh : forall h b, HOpen h b ∈ h_log s -> h < h_next s;
  g_single : forall k k' h b b', h_log s !! k = Some (HOpen h b) -> h_log s !! k' = Some (HOpen h b') -> k = k';
}.

Lemma snoc_lookup {A} (l : list A) a k v : (l ++ [a]) !! k = Some v -> l !! k = Some v \/ (k = List.length l /\ a = v).
Proof.
  intros H. apply lookup_app_Some in H as [H|[H1 H2]]; [by left|right]. apply list_lookup_singleton_Some in H2 as [H2 ->]. split; [lia|done].
Qed.
Lemma earlier_app {A} (l l' : list A) k v : earlier l k v -> earlier (l ++ l') k v.
Proof. intros (j & H & H'). exists j. split; [done|]. by apply lookup_app_l_Some. Qed.
Lemma earlier_snoc {A} (l : list A) a k v : earlier l k v -> earlier (l ++ [a]) k v.
Proof. intros (j & H & H'). exists j. split; [done|]. by apply lookup_app_l_Some. Qed.

(** A line of history that is no closing. *)
Lemma good_log e s : (forall h, e <> HClose h) -> (forall h b, e <> HOpen h b) -> good s -> good (s <| h_log ::= fun l => l ++ [e] |>).
Proof.
  intros He Ho [G1 G2 G3 G4 G5 G6 G7 G8 G9 G10]. constructor; cbn; try done.
  - intros h b H. apply elem_of_app. left. by apply G4.
  - intros h H. apply elem_of_app in H as [H|H]; [by apply G5|]. apply elem_of_list_singleton in H. by destruct (He h).
  - intros k k' h H H'. apply snoc_lookup in H as [H|[_ H]]; [|by destruct (He h)]. apply snoc_lookup in H' as [H'|[_ H']]; [by eapply G6|by destruct (He h)].
  - intros k h H. apply snoc_lookup in H as [H|[_ H]]; [|by destruct (He h)]. destruct (G7 _ _ H) as [b Hb]. exists b. by apply earlier_snoc.
  - intros h b H. apply elem_of_app in H as [H|H]; [|apply elem_of_list_singleton in H; by destruct (Ho h b)].
    destruct (G8 _ _ H) as [H'|H']; [by left|right]. apply elem_of_app. by left.
  - intros h b H. apply elem_of_app in H as [H|H]; [by eapply G9|]. apply elem_of_list_singleton in H. by destruct (Ho h b).
  - intros k k' h b b' H H'. apply snoc_lookup in H as [H|[_ H]]; [|by destruct (Ho h b)]. apply snoc_lookup in H' as [H'|[_ H']]; [by eapply G10|by destruct (Ho h b')].
Qed.
Lemma good_openInto k s : good s -> good (openInto k (inhOf k.2) s).
Proof.
  intros [G1 G2 G3 G4 G5 G6 G7 G8 G9 G10]. unfold openInto. cbv zeta. set (n := h_next s).
  assert (Hn : h_open s !! n = None). { destruct (h_open s !! n) as [b|] eqn:E; [|done]. apply G3 in E. unfold n in E. lia. }
  assert (Hs : forall k' h, h_slots s !! k' = Some h -> h <> n). { intros k' h H ->. apply G2 in H. by rewrite Hn in H. }
  constructor; cbn.
  - intros a b h Ha Hb. apply lookup_insert_Some in Ha as [[<- <-]|[Na Ha]]; apply lookup_insert_Some in Hb as [[<- Eb]|[Nb Hb]]; try done.
    + by destruct (Hs _ _ Hb).
    + subst h. by destruct (Hs _ _ Ha).
    + by eapply G1.
  - intros a h Ha. apply lookup_insert_Some in Ha as [[<- <-]|[Na Ha]]; [by rewrite lookup_insert|].
    rewrite lookup_insert_ne; [by apply G2|]. intros E. by destruct (Hs _ _ Ha).
  - intros h b H. apply lookup_insert_Some in H as [[<- _]|[_ H]]; [unfold n; lia|]. apply G3 in H. unfold n. lia.
  - intros h b H. apply elem_of_app. apply lookup_insert_Some in H as [[<- <-]|[_ H]]; [right; left|left; by apply G4].
  - intros h H. apply elem_of_app in H as [H|H]; [|by apply elem_of_list_singleton in H]. destruct (G5 _ H) as [H1 H2]. split; [unfold n; lia|].
    rewrite lookup_insert_ne; [done|]. unfold n. lia.
  - intros a b h Ha Hb. apply snoc_lookup in Ha as [Ha|[_ Ha]]; [|done]. apply snoc_lookup in Hb as [Hb|[_ Hb]]; [by eapply G6|done].
  - intros a h Ha. apply snoc_lookup in Ha as [Ha|[_ Ha]]; [|done]. destruct (G7 _ _ Ha) as [b Hb]. exists b. by apply earlier_snoc.
  - intros h b H. apply elem_of_app in H as [H|H].
    + destruct (G8 _ _ H) as [H'|H']; [left|right; apply elem_of_app; by left]. rewrite lookup_insert_ne; [done|]. intros <-. by rewrite Hn in H'.
    + apply elem_of_list_singleton in H. injection H as -> ->. left. by rewrite lookup_insert.
  - intros h b H. apply elem_of_app in H as [H|H]; [apply G9 in H; unfold n; lia|]. apply elem_of_list_singleton in H. injection H as -> ->. unfold n. lia.
  - assert (N : forall a b, h_log s !! a <> Some (HOpen n b)). { intros a b Ha. apply elem_of_list_lookup_2, G9 in Ha. unfold n in Ha. lia. }
    intros a a' h b b' Ha Hb. apply snoc_lookup in Ha as [Ha|[-> Ha]]; apply snoc_lookup in Hb as [Hb|[-> Hb]]; [by eapply G10| | |done].
    + injection Hb as <- <-. by destruct (N _ _ Ha).
    + injection Ha as <- <-. by destruct (N _ _ Hb).
Qed.
Lemma good_close k s : good s -> good (safelyClose k s).
Proof.
  intros G. unfold safelyClose. destruct (h_slots s !! k) as [n|] eqn:Ek; [|done]. destruct G as [G1 G2 G3 G4 G5 G6 G7 G8 G9 G10]. pose proof (G2 _ _ Ek) as Ho.
  constructor; cbn.
  - intros a b h Ha Hb. apply lookup_delete_Some in Ha as [_ Ha]. apply lookup_delete_Some in Hb as [_ Hb]. by eapply G1.
  - intros a h Ha. apply lookup_delete_Some in Ha as [Na Ha]. rewrite lookup_delete_ne; [by apply G2|]. intros <-. apply Na. by eapply G1.
  - intros h b H. apply lookup_delete_Some in H as [_ H]. by eapply G3.
  - intros h b H. apply lookup_delete_Some in H as [_ H]. apply elem_of_app. left. by apply G4.
  - intros h H. apply elem_of_app in H as [H|H].
    + destruct (G5 _ H) as [H1 H2]. split; [done|]. apply lookup_delete_None. by right.
    + apply elem_of_list_singleton in H. injection H as ->. split; [by eapply G3|by apply lookup_delete].
  - assert (N : forall a, h_log s !! a <> Some (HClose n)). { intros a Ha. apply elem_of_list_lookup_2, G5 in Ha as [_ Ha]. by rewrite Ho in Ha. }
    intros a b h Ha Hb. apply snoc_lookup in Ha as [Ha|[-> Ha]]; apply snoc_lookup in Hb as [Hb|[-> Hb]]; [by eapply G6| | |done].
    + injection Hb as ->. by destruct (N a).
    + injection Ha as ->. by destruct (N b).
  - intros a h Ha. apply snoc_lookup in Ha as [Ha|[-> Ha]].
    + destruct (G7 _ _ Ha) as [b Hb]. exists b. by apply earlier_snoc.
    + injection Ha as ->. exists (inhOf k.2). apply G4 in Ho. apply elem_of_list_lookup in Ho as [j Hj]. exists j. split; [by eapply lookup_lt_Some|by apply lookup_app_l_Some].
  - intros h b H. apply elem_of_app in H as [H|H]; [|by apply elem_of_list_singleton in H]. destruct (decide (h = n)) as [->|N]; [right; apply elem_of_app; right; left|].
    destruct (G8 _ _ H) as [H'|H']; [left; by rewrite lookup_delete_ne|right; apply elem_of_app; by left].
  - intros h b H. apply elem_of_app in H as [H|H]; [by eapply G9|by apply elem_of_list_singleton in H].
  - intros a a' h b b' Ha Hb. apply snoc_lookup in Ha as [Ha|[_ Ha]]; [|done]. apply snoc_lookup in Hb as [Hb|[_ Hb]]; [by eapply G10|done].
Qed.
Lemma openInto_slots k b s : h_slots (openInto k b s) = <[k := h_next s]> (h_slots s). Proof. reflexivity. Qed.
Lemma openInto_open k b s : h_open (openInto k b s) = <[h_next s := b]> (h_open s). Proof. reflexivity. Qed.
Lemma openInto_next k b s : h_next (openInto k b s) = S (h_next s). Proof. reflexivity. Qed.
Lemma openInto_running k b s : h_running (openInto k b s) = h_running s. Proof. reflexivity. Qed.
Lemma openInto_log k b s : h_log (openInto k b s) = h_log s ++ [HOpen (h_next s) b]. Proof. reflexivity. Qed.
Lemma close_running k s : h_running (safelyClose k s) = h_running s.
Proof. unfold safelyClose. by destruct (h_slots s !! k). Qed.
Lemma created_slots i ok s : h_slots (created i ok s) = h_slots s. Proof. reflexivity. Qed.
Lemma created_open i ok s : h_open (created i ok s) = h_open s. Proof. reflexivity. Qed.
Lemma created_next i ok s : h_next (created i ok s) = h_next s. Proof. reflexivity. Qed.
Lemma created_running i ok s : h_running (created i ok s) = h_running s. Proof. reflexivity. Qed.
Lemma later_running_ f s : h_slots (s <| h_running ::= f |>) = h_slots s /\ h_open (s <| h_running ::= f |>) = h_open s /\ h_log (s <| h_running ::= f |>) = h_log s /\ h_next (s <| h_running ::= f |>) = h_next s. Proof. split_and!; reflexivity. Qed.
Lemma running_running f s : h_running (s <| h_running ::= f |>) = f (h_running s). Proof. reflexivity. Qed.
Lemma good_running f s : good s -> good (s <| h_running ::= f |>).
Proof. intros [G1 G2 G3 G4 G5 G6 G7 G8 G9 G10]. by constructor. Qed.

#[local] Opaque openInto safelyClose.
Lemma good_pipe_in i s : good s -> good (setupPipe i InR InW true s).
Proof. intros G. unfold setupPipe. apply (good_openInto (i, InW)), (good_openInto (i, InR)), G. Qed.
Lemma good_pipe_out i s : good s -> good (setupPipe i OutR OutW false s).
Proof. intros G. unfold setupPipe. apply (good_openInto (i, OutW)), (good_openInto (i, OutR)), G. Qed.
Lemma good_pipe_err i s : good s -> good (setupPipe i ErrR ErrW false s).
Proof. intros G. unfold setupPipe. apply (good_openInto (i, ErrW)), (good_openInto (i, ErrR)), G. Qed.

Lemma good_pipes i s : good s -> good (pipes i s).
Proof. intros G. unfold pipes. apply good_pipe_err. apply good_pipe_out. apply good_pipe_in. exact G. Qed.
Lemma good_created i ok s : good s -> good (created i ok s).
Proof. intros G. unfold created. apply good_log; [intros h; discriminate|intros h b; discriminate|exact G]. Qed.
Lemma good_started i s : good s -> good (started i s).
Proof. intros G. unfold started, twoOpen. do 4 apply good_close. apply (good_openInto (i, HThread)), (good_openInto (i, HProc)), G. Qed.

Lemma good_step e s s' : good s -> hstep e s = Some s' -> good s'.
Proof.
  intros G. destruct e as [i a|i|i]; cbn [hstep].
  - destruct (bool_decide _); [done|]. intros [= <-]. unfold procStart. pose proof (good_pipes i s G) as GP.
    destruct (a_read a); [|exact GP]. destruct (a_create a); [|apply good_created; exact GP]. apply good_running. apply good_started. apply good_created. exact GP.
  - intros [= <-]. unfold procFinished. destruct (bool_decide _); [|done]. apply good_running. by do 4 apply good_close.
  - intros [= <-]. unfold procDestroyed. by do 6 apply good_close.
Qed.
Lemma good_start n : good (hstart n).
Proof. constructor; cbn; try done; [intros h H|intros h b H|intros h b H]; by apply elem_of_nil in H. Qed.
Lemma run_ind (P : hstate -> Prop) (C : hevent -> Prop) es s s' : (forall e s s', C e -> good s -> P s -> hstep e s = Some s' -> P s') ->
  (forall e, e ∈ es -> C e) -> good s -> P s -> hrun es s = Some s' -> good s' /\ P s'.
Proof.
  intros Hst. revert s. induction es as [|e es IH]; intros s HC G HP H; cbn in H; [by injection H as <-|].
  destruct (hstep e s) as [s1|] eqn:E; [|done]. apply (IH s1).
  - intros e' He'. apply HC. by right.
  - by eapply good_step.
  - eapply Hst; [apply HC; left|done|done|exact E].
  - exact H.
Qed.

(** ** What children inherit *)

Definition noCreate (e : hev) : Prop := match e with HCreate _ _ _ _ => False | _ => True end.
Definition later_ (s s' : hstate) : Prop := exists l, h_log s' = h_log s ++ l /\ Forall noCreate l /\ h_next s <= h_next s' /\
  forall h, h < h_next s -> h_open s !! h = None -> h_open s' !! h = None.
Lemma later_refl s : later_ s s.
Proof. exists []. rewrite app_nil_r. by split_and!. Qed.
Lemma later_trans s1 s2 s3 : later_ s1 s2 -> later_ s2 s3 -> later_ s1 s3.
Proof.
  intros (l & H1 & H2 & H3 & H4) (l' & K1 & K2 & K3 & K4). exists (l ++ l'). rewrite K1, H1, app_assoc. split_and!; [done|by apply Forall_app|lia|].
  intros h Hh Ho. apply K4; [lia|by apply H4].
Qed.
#[local] Transparent openInto safelyClose.
Lemma later_open k b s : later_ s (openInto k b s).
Proof.
  exists [HOpen (h_next s) b]. split_and!; [done|by repeat constructor|cbn; lia|]. intros h Hh Ho. cbn. rewrite lookup_insert_ne; [done|lia].
Qed.
Lemma later_running f s s' : later_ s s' -> later_ s (s' <| h_running ::= f |>).
Proof. intros L. exact L. Qed.
Lemma later_close k s : later_ s (safelyClose k s).
Proof.
  unfold safelyClose. destruct (h_slots s !! k) as [n|]; [|apply later_refl]. exists [HClose n]. split_and!; [done|by repeat constructor|done|].
  intros h Hh Ho. cbn. apply lookup_delete_None. by right.
Qed.
#[local] Opaque openInto safelyClose.
Lemma later_pipes i s : later_ s (pipes i s).
Proof. unfold pipes, setupPipe. repeat (eapply later_trans; [|apply later_open]). apply later_refl. Qed.
Lemma later_started i s : later_ s (started i s).
Proof. unfold started, twoOpen. do 4 (eapply later_trans; [|apply later_close]). do 2 (eapply later_trans; [|apply later_open]). apply later_refl. Qed.

Lemma pipes_slots i s x : h_slots (pipes i s) !! (i, x) =
  match x with InR => Some (h_next s) | InW => Some (S (h_next s)) | OutR => Some (S (S (h_next s))) | OutW => Some (S (S (S (h_next s))))
  | ErrR => Some (S (S (S (S (h_next s))))) | ErrW => Some (S (S (S (S (S (h_next s)))))) | _ => h_slots s !! (i, x) end.
Proof. unfold pipes, setupPipe. rewrite !openInto_slots, !openInto_next. destruct x; repeat first [rewrite lookup_insert|rewrite lookup_insert_ne by done]; reflexivity. Qed.
Lemma pipes_others i s j x : j <> i -> h_slots (pipes i s) !! (j, x) = h_slots s !! (j, x).
Proof. intros H. unfold pipes, setupPipe. rewrite !openInto_slots. rewrite !lookup_insert_ne by congruence. reflexivity. Qed.

#[local] Transparent openInto safelyClose.
Lemma close_other k k' s : k <> k' -> h_slots (safelyClose k s) !! k' = h_slots s !! k'.
Proof. intros H. unfold safelyClose. destruct (h_slots s !! k); [|done]. cbn. by rewrite lookup_delete_ne. Qed.
Lemma close_same k s : h_slots (safelyClose k s) !! k = None.
Proof. unfold safelyClose. destruct (h_slots s !! k) eqn:E; [|done]. cbn. by rewrite lookup_delete. Qed.
Lemma close_closed k s h : h_slots s !! k = Some h -> h_open (safelyClose k s) !! h = None.
Proof. intros H. unfold safelyClose. rewrite H. cbn. by rewrite lookup_delete. Qed.
Lemma close_next k s : h_next (safelyClose k s) = h_next s.
Proof. unfold safelyClose. by destruct (h_slots s !! k). Qed.

#[local] Opaque openInto safelyClose pipes.
Lemma twoOpen_slots i s j x : x <> HThread -> x <> HProc -> h_slots (twoOpen i s) !! (j, x) = h_slots s !! (j, x).
Proof. intros H1 H2. unfold twoOpen. rewrite !openInto_slots. rewrite !lookup_insert_ne by congruence. reflexivity. Qed.
Lemma started_closed i s x h : good s -> h_slots s !! (i, x) = Some h -> inhOf x = true -> h_open (started i s) !! h = None.
Proof.
  intros G H Hx. pose proof (g_next _ G h _ (g_open _ G _ _ H)) as Hn.
  set (s1 := twoOpen i s). assert (Hn1 : h < h_next s1). { unfold s1, twoOpen. rewrite !openInto_next. lia. }
  assert (H1 : h_slots s1 !! (i, x) = Some h). { unfold s1. rewrite twoOpen_slots; [done| |]; by intros ->. }
  change (started i s) with (safelyClose (i, ErrW) (safelyClose (i, OutW) (safelyClose (i, InW) (safelyClose (i, InR) s1)))).
  assert (L : forall k t, h < h_next t -> h_open t !! h = None -> h_open (safelyClose k t) !! h = None).
  { intros k t Ht Ho. destruct (later_close k t) as (_ & _ & _ & _ & C). by apply C. }
  destruct x; try done.
  - do 3 (apply L; [by rewrite ?close_next|]). by apply close_closed.
  - apply L; [by rewrite !close_next|]. apply close_closed. by rewrite !close_other.
  - apply close_closed. by rewrite !close_other.
Qed.

Definition ends (s : hstate) : Prop := forall k i std inh ok, h_log s !! k = Some (HCreate i std inh ok) ->
  (forall h, h ∈ inh -> h < h_next s) /\ (List.length std = 3 /\ forall h, h ∈ inh -> earlier (h_log s) k (HOpen h true)) /\
  forall h, h ∈ std -> h ∈ inh /\ (ok = true -> h_open s !! h = None /\
    forall k' i' std' inh' ok', k' <> k -> h_log s !! k' = Some (HCreate i' std' inh' ok') -> h ∉ inh').

Lemma later_lookup s s' k i std inh ok : later_ s s' -> h_log s' !! k = Some (HCreate i std inh ok) -> h_log s !! k = Some (HCreate i std inh ok).
Proof.
  intros (l & -> & Hl & _) H. apply lookup_app_Some in H as [H|[_ H]]; [done|]. apply elem_of_list_lookup_2 in H. rewrite Forall_forall in Hl. by apply Hl in H.
Qed.
Lemma ends_later s s' : later_ s s' -> ends s -> ends s'.
Proof.
  intros L E k i std inh ok H. apply (later_lookup _ _ _ _ _ _ _ L) in H. destruct (E _ _ _ _ _ H) as (E1 & [E0 Ee] & E2).
  pose proof L as (l & L1 & _ & L3 & L4). split_and!.
  - intros h Hh. apply E1 in Hh. lia.
  - exact E0.
  - intros h Hh. rewrite L1. apply earlier_app. by apply Ee.
  - intros h Hh. destruct (E2 h Hh) as [E3 E4]. split; [done|]. intros Hok. destruct (E4 Hok) as [E5 E6]. split; [apply L4; [by apply E1|done]|].
    intros k' i' std' inh' ok' Hk H'. apply (later_lookup _ _ _ _ _ _ _ L) in H'. by eapply E6.
Qed.

Lemma created_log i ok s : exists std inh, h_log (created i ok s) = h_log s ++ [HCreate i std inh ok] /\
  std = omap (fun x => h_slots s !! (i, x)) [InR; OutW; ErrW] /\ (forall h, h ∈ inh <-> h_open s !! h = Some true).
Proof.
  eexists _, _. split; [reflexivity|]. split; [reflexivity|]. intros h. rewrite elem_of_dom. split.
  - intros [b Hb]. apply map_filter_lookup_Some in Hb as [Hb Ht]. cbn in Ht. by subst b.
  - intros H. exists true. by apply map_filter_lookup_Some.
Qed.
Lemma std_in i s h : h ∈ omap (fun x => h_slots s !! (i, x)) [InR; OutW; ErrW] -> exists x, inhOf x = true /\ h_slots s !! (i, x) = Some h.
Proof. intros H. apply elem_of_list_omap in H as (x & Hx & H). exists x. split; [|done]. repeat (apply elem_of_cons in Hx as [->|Hx]); try done. by apply elem_of_nil in Hx. Qed.

Lemma ends_created i ok s s' : good s -> ends s -> later_ (created i ok (pipes i s)) s' ->
  (ok = true -> forall x h, h_slots (pipes i s) !! (i, x) = Some h -> inhOf x = true -> h_open s' !! h = None) -> ends s'.
Proof.
  intros G E L C. pose proof (good_pipes i s G) as GP. pose proof (ends_later _ _ (later_pipes i s) E) as EP.
  destruct (created_log i ok (pipes i s)) as (std & inh & Hl & Hs & Hi). pose proof L as (_ & _ & _ & L3 & L4). rewrite created_next in L3, L4. rewrite created_open in L4.
  assert (exists l, h_log s' = h_log (pipes i s) ++ l) as [lg Hlog]. { destruct L as (l & L1 & _). rewrite Hl, <- app_assoc in L1. by eexists. }
  assert (Inv : forall k i' std' inh' ok', h_log s' !! k = Some (HCreate i' std' inh' ok') ->
    (k < List.length (h_log (pipes i s)) /\ h_log (pipes i s) !! k = Some (HCreate i' std' inh' ok')) \/ (k = List.length (h_log (pipes i s)) /\ (i', std', inh', ok') = (i, std, inh, ok))).
  { intros k i' std' inh' ok' H. apply (later_lookup _ _ _ _ _ _ _ L) in H. rewrite Hl in H. apply snoc_lookup in H as [H|[-> H]].
    - left. split; [by eapply lookup_lt_Some|done].
    - right. split; [done|]. by injection H as -> -> -> ->. }
  intros k i' std' inh' ok' H. destruct (Inv _ _ _ _ _ H) as [[Hk H1]|[-> [= -> -> -> ->]]].
  - destruct (EP _ _ _ _ _ H1) as (E1 & [E0 Ee] & E2). split; [intros h Hh; apply E1 in Hh; lia|]. split; [split; [exact E0|intros h Hh; rewrite Hlog; apply earlier_app; by apply Ee]|]. intros h Hh. destruct (E2 h Hh) as [E3 E4]. split; [done|].
    intros Hok. destruct (E4 Hok) as [E5 E6]. split; [apply L4; [exact (E1 h E3)|exact E5]|].
    intros k2 i2 std2 inh2 ok2 Hk2 H2. destruct (Inv _ _ _ _ _ H2) as [[_ H3]|[-> [= -> -> -> ->]]]; [exact (E6 _ _ _ _ _ Hk2 H3)|].
    intros Hin. apply Hi in Hin. rewrite E5 in Hin. discriminate Hin.
  - split_and!.
    + intros h Hh. apply Hi in Hh. apply (g_next _ GP) in Hh. lia.
    + rewrite Hs. cbn [omap list_omap]. rewrite !pipes_slots. reflexivity.
    + intros h Hh. apply Hi in Hh. apply (g_opened _ GP) in Hh. apply elem_of_list_lookup in Hh as [q Hq]. exists q. split; [by eapply lookup_lt_Some|].
      rewrite Hlog. by apply lookup_app_l_Some.
    + intros h Hh. rewrite Hs in Hh. apply std_in in Hh as (x & Hx & Hh). split.
      * apply Hi. rewrite <- Hx. apply (g_open _ GP _ _ Hh).
      * intros Hok. split; [by eapply C|]. intros k2 i2 std2 inh2 ok2 Hk2 H2. destruct (Inv _ _ _ _ _ H2) as [[_ H3]|[-> _]]; [|done].
        intros Hin. apply (later_lookup _ _ _ _ _ _ _ (later_pipes i s)) in H3. destruct (E _ _ _ _ _ H3) as (E1 & _ & _). apply E1 in Hin.
        rewrite pipes_slots in Hh. destruct x; try done; injection Hh as <-; lia.
Qed.

Lemma ends_step e s s' : good s -> ends s -> hstep e s = Some s' -> ends s'.
Proof.
  intros G E. destruct e as [i a|i|i]; cbn [hstep].
  - destruct (bool_decide _); [done|]. intros [= <-]. unfold procStart.
    destruct (a_read a); [|apply (ends_later _ _ (later_pipes i s) E)]. destruct (a_create a).
    + apply (ends_created i true s); [exact G|exact E| |].
      * apply later_running. apply later_started.
      * intros _ x h Hh Hx. rewrite (proj1 (proj2 (later_running_ _ _))). apply (started_closed i (created i true (pipes i s)) x h); [apply good_created; apply good_pipes; exact G|rewrite created_slots; exact Hh|exact Hx].
    + apply (ends_created i false s); [exact G|exact E|apply later_refl|discriminate].
  - intros [= <-]. unfold procFinished. destruct (bool_decide _); [|done]. eapply ends_later, E.
    apply later_running. do 4 (eapply later_trans; [|apply later_close]). apply later_refl.
  - intros [= <-]. unfold procDestroyed. eapply ends_later, E. do 6 (eapply later_trans; [|apply later_close]). apply later_refl.
Qed.

(** ** When no start fails *)

(** The variables in use while a process is running. *)
Definition whileRunning (x : slot) : Prop := match x with OutR | ErrR | HProc | HThread => True | _ => False end.
Record tidy (s : hstate) : Prop := Tidy {
  t_slots : forall i x h, h_slots s !! (i, x) = Some h -> i ∈ h_running s /\ whileRunning x;
  t_open : forall h b, h_open s !! h = Some b -> exists k, h_slots s !! k = Some h;
  t_created : forall k i std inh ok, h_log s !! k = Some (HCreate i std inh ok) -> forall h, h ∈ inh <-> h ∈ std;
}.
Definition allHeld (s : hstate) : Prop := forall h b, h_open s !! h = Some b -> exists k, h_slots s !! k = Some h.
#[local] Transparent openInto safelyClose.
#[local] Transparent pipes.
Lemma pipes_running i s : h_running (pipes i s) = h_running s.
Proof. unfold pipes, setupPipe. rewrite !openInto_running. reflexivity. Qed.
Lemma held_open k b s : allHeld s -> h_slots s !! k = None -> allHeld (openInto k b s).
Proof.
  intros A Hk h c H. cbn in *. apply lookup_insert_Some in H as [[<- _]|[N H]]; [exists k; by rewrite lookup_insert|].
  destruct (A _ _ H) as [k' Hk']. exists k'. rewrite lookup_insert_ne; [done|]. intros <-. by rewrite Hk in Hk'.
Qed.
Lemma held_running f s : allHeld s -> allHeld (s <| h_running ::= f |>).
Proof. intros A. exact A. Qed.
Lemma held_close k s : allHeld s -> allHeld (safelyClose k s).
Proof.
  intros A. unfold safelyClose. destruct (h_slots s !! k) as [n|] eqn:E; [|done]. intros h c H. cbn in *. apply lookup_delete_Some in H as [N H].
  destruct (A _ _ H) as [k' Hk']. exists k'. rewrite lookup_delete_ne; [done|]. intros <-. rewrite E in Hk'. by injection Hk'.
Qed.
#[local] Opaque openInto safelyClose.
Lemma held_pipes i s : allHeld s -> (forall x, h_slots s !! (i, x) = None) -> allHeld (pipes i s).
Proof.
  intros A H. unfold pipes, setupPipe.
  repeat (apply held_open; [|rewrite ?openInto_slots; rewrite ?lookup_insert_ne by done; apply H]). exact A.
Qed.

#[local] Opaque pipes.
Lemma started_slots i s j x : h_slots (started i s) !! (j, x) =
  if bool_decide (j = i) then match x with OutR | ErrR => h_slots s !! (j, x) | HProc => Some (h_next s) | HThread => Some (S (h_next s)) | _ => None end else h_slots s !! (j, x).
Proof.
  change (started i s) with (safelyClose (i, ErrW) (safelyClose (i, OutW) (safelyClose (i, InW) (safelyClose (i, InR) (twoOpen i s))))). case_bool_decide as H.
  - subst j. destruct x; rewrite ?close_same, ?close_other by done; rewrite ?close_same, ?close_other by done; rewrite ?close_same, ?close_other by done; rewrite ?close_same, ?close_other by done;
      rewrite ?close_same; try done; try (by apply twoOpen_slots); unfold twoOpen; rewrite !openInto_slots.
    + rewrite lookup_insert_ne by done. by rewrite lookup_insert.
    + rewrite openInto_next. by rewrite lookup_insert.
  - rewrite !close_other by congruence. unfold twoOpen. rewrite !openInto_slots. rewrite !lookup_insert_ne by congruence. reflexivity.
Qed.

(** The state after the three pipes as a variable: then the terms stay small. *)
Lemma tidy_started i s p : tidy s -> good p -> later_ s p -> allHeld p -> h_running p = h_running s ->
  (forall j x, j <> i -> h_slots p !! (j, x) = h_slots s !! (j, x)) -> h_slots p !! (i, HProc) = None -> h_slots p !! (i, HThread) = None ->
  tidy (started i (created i true p) <| h_running ::= fun r => {[i]} ∪ r |>).
Proof.
  intros [T1 T2 T3] GP LP AP RP OP P1 P2. set (c := created i true p).
  assert (Hsl : forall j x, h_slots (started i c) !! (j, x) =
    if bool_decide (j = i) then match x with OutR | ErrR => h_slots p !! (i, x) | HProc => Some (h_next c) | HThread => Some (S (h_next c)) | _ => None end else h_slots s !! (j, x)).
  { intros j x. rewrite started_slots. unfold c. rewrite created_slots. case_bool_decide as H; [by subst j|by apply OP]. }
  assert (Hr : h_running (started i c) = h_running s).
  { unfold started, twoOpen. rewrite !close_running, !openInto_running. unfold c. rewrite created_running. exact RP. }
  constructor.
  - intros j x h H. rewrite (proj1 (later_running_ _ _)), Hsl in H. rewrite running_running, Hr. case_bool_decide as Hj.
    + subst j. split; [set_solver|]. by destruct x.
    + apply T1 in H as [H Hx]. split; [set_solver|exact Hx].
  - assert (A : allHeld (started i c)).
    { unfold started, twoOpen. do 4 apply held_close. apply held_open; [apply held_open|].
      - intros h b. unfold c. rewrite created_open, created_slots. apply AP.
      - unfold c. rewrite created_slots. exact P1.
      - rewrite openInto_slots. rewrite lookup_insert_ne by done. unfold c. rewrite created_slots. exact P2. }
    exact (held_running _ _ A).
  - intros k i' std inh ok H. rewrite (proj1 (proj2 (proj2 (later_running_ _ _)))) in H.
    apply (later_lookup _ _ _ _ _ _ _ (later_started i c)) in H. destruct (created_log i true p) as (std0 & inh0 & Hl & Hs & Hin).
    unfold c in H. rewrite Hl in H. apply snoc_lookup in H as [H|[_ H]].
    { apply (later_lookup _ _ _ _ _ _ _ LP) in H. by eapply T3. }
    injection H as <- <- <- <-. intros h. rewrite Hin. split.
    + intros Ho. destruct (AP _ _ Ho) as [[j x] Hk]. pose proof (g_open _ GP _ _ Hk) as Ho'. rewrite Ho in Ho'. injection Ho' as Hx. cbn in Hx.
      destruct (decide (j = i)) as [->|Hj].
      * rewrite Hs. apply elem_of_list_omap. exists x. split; [|done]. destruct x; try done; [left|right; left|right; right; left].
      * rewrite OP in Hk by done. apply T1 in Hk as [_ Hk]. by destruct x.
    + intros Hh. rewrite Hs in Hh. apply std_in in Hh as (x & Hx & Hh). rewrite <- Hx. by apply (g_open _ GP _ _ Hh).
Qed.
Lemma tidy_start i s : good s -> tidy s -> i ∉ h_running s -> tidy (procStart i (Answer true true) s).
Proof.
  intros G T Hi. unfold procStart. cbn [a_read a_create].
  assert (Hno : forall x, h_slots s !! (i, x) = None). { intros x. destruct (h_slots s !! (i, x)) eqn:E; [|done]. by apply (t_slots _ T) in E as [E _]. }
  apply (tidy_started i s).
  - exact T.
  - apply good_pipes. exact G.
  - apply later_pipes.
  - apply held_pipes; [exact (t_open _ T)|exact Hno].
  - apply pipes_running.
  - intros j x. apply pipes_others.
  - rewrite pipes_slots. apply Hno.
  - rewrite pipes_slots. apply Hno.
Qed.

Lemma tidy_close k s : tidy s -> tidy (safelyClose k s).
Proof.
  intros [T1 T2 T3]. constructor.
  - intros i x h H. rewrite close_running.
    apply T1 with h. destruct (decide (k = (i, x))) as [->|N]; [by rewrite close_same in H|by rewrite close_other in H].
  - by apply held_close.
  - intros j i std inh ok H. apply (later_lookup _ _ _ _ _ _ _ (later_close k s)) in H. by eapply T3.
Qed.

Lemma tidy_drop i s : tidy s -> (forall x h, whileRunning x -> h_slots s !! (i, x) = Some h -> False) -> tidy (s <| h_running ::= fun r => r ∖ {[i]} |>).
Proof.
  intros [T1 T2 T3] Hi. constructor; [|exact T2|exact T3]. cbn. intros j x h H. destruct (T1 _ _ _ H) as [H1 H2]. split; [|exact H2].
  apply elem_of_difference. split; [exact H1|]. intros Hj. apply elem_of_singleton in Hj as ->. by eapply Hi.
Qed.
Lemma tidy_step e s s' : match e with EStart _ a => a = Answer true true | _ => True end -> good s -> tidy s -> hstep e s = Some s' -> tidy s'.
Proof.
  intros C G T. destruct e as [i a|i|i]; cbn [hstep].
  - case_bool_decide; [done|]. intros [= <-]. subst a. by apply tidy_start.
  - intros [= <-]. unfold procFinished. case_bool_decide as Hr; [|done].
    set (t := safelyClose (i, HThread) (safelyClose (i, HProc) (safelyClose (i, ErrR) (safelyClose (i, OutR) s)))).
    assert (Ht : tidy t) by (by do 4 apply tidy_close). apply tidy_drop; [exact Ht|]. intros x h Hx H. unfold t in H.
    destruct x; try done; repeat first [rewrite close_same in H|rewrite close_other in H by done]; done.
  - intros [= <-]. unfold procDestroyed. by do 6 apply tidy_close.
Qed.
Lemma tidy_hstart n : tidy (hstart n).
Proof. by constructor. Qed.
Lemma ends_hstart n : ends (hstart n).
Proof. intros k i std inh ok H. done. Qed.

(** ** A start that fails, again and again *)

Lemma hrun_app es es' s : hrun (es ++ es') s = match hrun es s with Some s' => hrun es' s' | None => None end.
Proof. revert s. induction es as [|e es IH]; intros s; [done|]. cbn. destruct (hstep e s); [apply IH|done]. Qed.

Lemma size_open k s : good s -> size (h_open (openInto k (inhOf k.2) s)) = S (size (h_open s)).
Proof.
  intros G. rewrite openInto_open. apply map_size_insert_None. destruct (h_open s !! h_next s) as [b|] eqn:E; [|reflexivity].
  apply (g_next _ G) in E. lia.
Qed.
#[local] Transparent safelyClose.
Lemma size_close k s h : good s -> h_slots s !! k = Some h -> S (size (h_open (safelyClose k s))) = size (h_open s).
Proof.
  intros G H. pose proof (g_open _ G _ _ H) as Ho. unfold safelyClose. rewrite H. cbn.
  rewrite map_size_delete_Some by (by eexists). assert (size (h_open s) <> 0); [|lia]. intros E. apply map_size_empty_iff in E. by rewrite E in Ho.
Qed.
#[local] Opaque safelyClose.
#[local] Transparent pipes.
Lemma size_pipes i s : good s -> size (h_open (pipes i s)) = 6 + size (h_open s).
Proof.
  intros G. unfold pipes, setupPipe.
  set (s1 := openInto (i, InR) true s). assert (G1 : good s1) by exact (good_openInto (i, InR) s G).
  set (s2 := openInto (i, InW) (negb true) s1). assert (G2 : good s2) by exact (good_openInto (i, InW) s1 G1).
  set (s3 := openInto (i, OutR) false s2). assert (G3 : good s3) by exact (good_openInto (i, OutR) s2 G2).
  set (s4 := openInto (i, OutW) (negb false) s3). assert (G4 : good s4) by exact (good_openInto (i, OutW) s3 G3).
  set (s5 := openInto (i, ErrR) false s4). assert (G5 : good s5) by exact (good_openInto (i, ErrR) s4 G4).
  rewrite (size_open (i, ErrW) s5 G5 : size (h_open (openInto (i, ErrW) (negb false) s5)) = _).
  unfold s5. rewrite (size_open (i, ErrR) s4 G4 : size (h_open (openInto (i, ErrR) false s4)) = _).
  unfold s4. rewrite (size_open (i, OutW) s3 G3 : size (h_open (openInto (i, OutW) (negb false) s3)) = _).
  unfold s3. rewrite (size_open (i, OutR) s2 G2 : size (h_open (openInto (i, OutR) false s2)) = _).
  unfold s2. rewrite (size_open (i, InW) s1 G1 : size (h_open (openInto (i, InW) (negb true) s1)) = _).
  unfold s1. rewrite (size_open (i, InR) s G : size (h_open (openInto (i, InR) true s)) = _). lia.
Qed.
#[local] Opaque pipes.
Lemma size_started i s : good s -> (forall x, x = InR \/ x = InW \/ x = OutW \/ x = ErrW -> is_Some (h_slots s !! (i, x))) ->
  2 + size (h_open (started i s)) = size (h_open s).
Proof.
  intros G H. unfold started, twoOpen.
  set (s1 := openInto (i, HProc) false s). assert (G1 : good s1) by exact (good_openInto (i, HProc) s G).
  set (s2 := openInto (i, HThread) false s1). assert (G2 : good s2) by exact (good_openInto (i, HThread) s1 G1).
  assert (E : size (h_open s2) = 2 + size (h_open s)).
  { unfold s2. rewrite (size_open (i, HThread) s1 G1 : size (h_open (openInto (i, HThread) false s1)) = _). unfold s1.
    rewrite (size_open (i, HProc) s G : size (h_open (openInto (i, HProc) false s)) = _). lia. }
  assert (Hs : forall x, x <> HThread -> x <> HProc -> h_slots s2 !! (i, x) = h_slots s !! (i, x)) by (intros x; apply (twoOpen_slots i s i x)).
  clearbody s2. clear s1 G1.
  destruct (H InR) as [h1 H1]; [tauto|]. destruct (H InW) as [h2 H2]; [tauto|]. destruct (H OutW) as [h3 H3]; [tauto|]. destruct (H ErrW) as [h4 H4]; [tauto|].
  rewrite <- Hs in H1, H2, H3, H4 by done.
  pose proof (size_close _ _ _ G2 H1) as K1. pose proof (good_close (i, InR) _ G2) as G3. set (s3 := safelyClose (i, InR) s2) in *.
  assert (I2 : h_slots s3 !! (i, InW) = Some h2) by (unfold s3; by rewrite close_other). assert (I3 : h_slots s3 !! (i, OutW) = Some h3) by (unfold s3; by rewrite close_other).
  assert (I4 : h_slots s3 !! (i, ErrW) = Some h4) by (unfold s3; by rewrite close_other). clearbody s3.
  pose proof (size_close _ _ _ G3 I2) as K2. pose proof (good_close (i, InW) _ G3) as G4. set (s4 := safelyClose (i, InW) s3) in *.
  assert (J3 : h_slots s4 !! (i, OutW) = Some h3) by (unfold s4; by rewrite close_other). assert (J4 : h_slots s4 !! (i, ErrW) = Some h4) by (unfold s4; by rewrite close_other). clearbody s4.
  pose proof (size_close _ _ _ G4 J3) as K3. pose proof (good_close (i, OutW) _ G4) as G5. set (s5 := safelyClose (i, OutW) s4) in *.
  assert (L4 : h_slots s5 !! (i, ErrW) = Some h4) by (unfold s5; by rewrite close_other). clearbody s5.
  pose proof (size_close _ _ _ G5 L4) as K4. lia.
Qed.
Lemma size_four i s : good s -> (forall x, whileRunning x -> is_Some (h_slots s !! (i, x))) ->
  4 + size (h_open (safelyClose (i, HThread) (safelyClose (i, HProc) (safelyClose (i, ErrR) (safelyClose (i, OutR) s))))) = size (h_open s).
Proof.
  intros G2 H. destruct (H OutR I) as [h1 H1]. destruct (H ErrR I) as [h2 H2]. destruct (H HProc I) as [h3 H3]. destruct (H HThread I) as [h4 H4].
  pose proof (size_close _ _ _ G2 H1) as K1. pose proof (good_close (i, OutR) _ G2) as G3. set (s3 := safelyClose (i, OutR) s) in *.
  assert (I2 : h_slots s3 !! (i, ErrR) = Some h2) by (unfold s3; by rewrite close_other). assert (I3 : h_slots s3 !! (i, HProc) = Some h3) by (unfold s3; by rewrite close_other).
  assert (I4 : h_slots s3 !! (i, HThread) = Some h4) by (unfold s3; by rewrite close_other). clearbody s3.
  pose proof (size_close _ _ _ G3 I2) as K2. pose proof (good_close (i, ErrR) _ G3) as G4. set (s4 := safelyClose (i, ErrR) s3) in *.
  assert (J3 : h_slots s4 !! (i, HProc) = Some h3) by (unfold s4; by rewrite close_other). assert (J4 : h_slots s4 !! (i, HThread) = Some h4) by (unfold s4; by rewrite close_other). clearbody s4.
  pose proof (size_close _ _ _ G4 J3) as K3. pose proof (good_close (i, HProc) _ G4) as G5. set (s5 := safelyClose (i, HProc) s4) in *.
  assert (L4 : h_slots s5 !! (i, HThread) = Some h4) by (unfold s5; by rewrite close_other). clearbody s5.
  pose proof (size_close _ _ _ G5 L4) as K4. lia.
Qed.

(** One round: a start that fails, one that succeeds, the process ends. Six handles more are open than before. *)
Lemma round_started i p : good p -> (forall x, match x with HProc | HThread => False | _ => True end -> is_Some (h_slots p !! (i, x))) ->
  exists s', procFinished i (started i (created i true p) <| h_running ::= fun r => {[i]} ∪ r |>) = s' /\ good s' /\ h_running s' = ({[i]} ∪ h_running p) ∖ {[i]} /\
    6 + size (h_open s') = size (h_open p).
Proof.
  intros G H. eexists. split; [reflexivity|]. pose proof (good_created i true p G) as Gc. set (c := created i true p) in *.
  pose proof (size_started i c Gc) as S1. pose proof (good_started i c Gc) as Gs. pose proof (fun x => started_slots i c i x) as Sl. set (t := started i c) in *.
  assert (Hr : h_running t = h_running p).
  { unfold t, started, twoOpen. rewrite !close_running, !openInto_running. unfold c. apply created_running. }
  assert (Hc : forall x, h_slots c !! (i, x) = h_slots p !! (i, x)) by (intros x; unfold c; by rewrite created_slots).
  assert (So : size (h_open c) = size (h_open p)) by (unfold c; by rewrite created_open). clearbody c t.
  assert (S2 : 2 + size (h_open t) = size (h_open p)).
  { rewrite <- So. apply S1. intros x Hx. rewrite Hc. apply H. by destruct Hx as [->|[->|[->| ->]]]. }
  pose proof (good_running (fun r => {[i]} ∪ r) t Gs) as Gu. pose proof (later_running_ (fun r => {[i]} ∪ r) t) as (U1 & U2 & _ & _).
  pose proof (running_running (fun r => {[i]} ∪ r) t) as U3. set (u := t <| h_running ::= fun r => {[i]} ∪ r |>) in *. clearbody u.
  assert (Hi : i ∈ h_running u) by (rewrite U3; set_solver).
  unfold procFinished. rewrite bool_decide_true by exact Hi.
  assert (S3 := size_four i u Gu).
  pose proof (good_close (i, HThread) _ (good_close (i, HProc) _ (good_close (i, ErrR) _ (good_close (i, OutR) _ Gu)))) as Gv.
  assert (Hv : h_running (safelyClose (i, HThread) (safelyClose (i, HProc) (safelyClose (i, ErrR) (safelyClose (i, OutR) u)))) = h_running u) by (by rewrite !close_running).
  set (v := safelyClose (i, HThread) (safelyClose (i, HProc) (safelyClose (i, ErrR) (safelyClose (i, OutR) u)))) in *. clearbody v.
  split; [by apply good_running|]. rewrite running_running. split; [by rewrite Hv, U3, Hr|].
  rewrite (proj1 (proj2 (later_running_ _ _))). rewrite <- S2. rewrite <- U2. rewrite <- S3; [lia|].
  intros x Hx. rewrite U1, Sl. rewrite bool_decide_true by reflexivity. rewrite Hc. destruct x; try done; by apply H.
Qed.
Lemma one_round i s : good s -> i ∉ h_running s -> exists s', hrun (failThenShell i) s = Some s' /\ good s' /\ i ∉ h_running s' /\ size (h_open s') = 6 + size (h_open s).
Proof.
  intros G Hi. pose proof (good_pipes i s G) as GP. pose proof (good_created i false _ GP) as Gc.
  assert (Hc : size (h_open (created i false (pipes i s))) = 6 + size (h_open s)) by (rewrite created_open; by apply size_pipes).
  assert (Hr : h_running (created i false (pipes i s)) = h_running s) by (rewrite created_running; apply pipes_running).
  unfold failThenShell. cbn [hrun hstep]. rewrite bool_decide_false by exact Hi.
  change (procStart i (Answer true false) s) with (created i false (pipes i s)).
  set (c := created i false (pipes i s)) in *. clearbody c. rewrite bool_decide_false by (rewrite Hr; exact Hi).
  change (procStart i (Answer true true) c) with (started i (created i true (pipes i c)) <| h_running ::= fun r => {[i]} ∪ r |>).
  destruct (round_started i (pipes i c)) as (s' & -> & G' & R' & S').
  - by apply good_pipes.
  - intros x Hx. rewrite pipes_slots. destruct x; try done; by eexists.
  - exists s'. split_and!; [reflexivity|exact G'| |].
    + rewrite R'. set_solver.
    + rewrite (size_pipes i c Gc) in S'. lia.
Qed.
Lemma rounds_leak n i s : good s -> i ∉ h_running s -> exists s', hrun (rounds n i) s = Some s' /\ good s' /\ i ∉ h_running s' /\ size (h_open s') = 6 * n + size (h_open s).
Proof.
  revert s. induction n as [|n IH]; intros s G Hi; [by exists s|]. cbn [rounds]. rewrite hrun_app.
  destruct (one_round i s G Hi) as (s1 & -> & G1 & H1 & S1). destruct (IH s1 G1 H1) as (s2 & -> & G2 & H2 & S2). exists s2. split_and!; try done. lia.
Qed.

Lemma open_is s h : good s -> neverClosed (h_log s) h <-> is_Some (h_open s !! h).
Proof.
  intros G. split.
  - intros [[b Hb] Hc]. destruct (g_acc _ G _ _ Hb) as [H|H]; [by eexists|done].
  - intros [b Hb]. split; [exists b; by apply (g_opened _ G)|]. intros H. apply (g_closed _ G) in H as [_ H]. by rewrite H in Hb.
Qed.
Lemma reached es n s : hrun es (hstart n) = Some s -> good s /\ ends s.
Proof.
  intros H. apply (run_ind ends (fun _ => True) es (hstart n) s).
  - intros e s1 s2 _. apply ends_step.
  - done.
  - apply good_start.
  - apply ends_hstart.
  - exact H.
Qed.
Lemma reached_tidy es n s : noFailure es -> hrun es (hstart n) = Some s -> good s /\ tidy s.
Proof.
  intros Hn H. apply (run_ind tidy (fun e => match e with EStart _ a => a = Answer true true | _ => True end) es (hstart n) s).
  - intros e s1 s2. apply tidy_step.
  - intros e He. destruct e as [i a|i|i]; try done. by apply (Hn i).
  - apply good_start.
  - apply tidy_hstart.
  - exact H.
Qed.
Lemma close_all_running i s : h_running (procFinished i s) = h_running s ∖ {[i]}.
Proof.
  unfold procFinished. case_bool_decide as H; [|set_solver]. rewrite running_running, !close_running. reflexivity.
Qed.
Lemma start_running i a s : h_running (procStart i a s) = if a_read a && a_create a then {[i]} ∪ h_running s else h_running s.
Proof.
  unfold procStart. destruct (a_read a); [|apply pipes_running]. destruct (a_create a); cbn [andb].
  - rewrite running_running. unfold started, twoOpen. rewrite !close_running, !openInto_running, created_running, pipes_running. reflexivity.
  - rewrite created_running. apply pipes_running.
Qed.
Lemma rounds_running m s s' : h_running s = ∅ -> hrun (rounds m 0) s = Some s' -> h_running s' = ∅.
Proof.
  revert s. induction m as [|m IH]; intros s Hr H; [by injection H as <-|]. cbn [rounds] in H. rewrite hrun_app in H.
  destruct (hrun (failThenShell 0) s) as [t|] eqn:E; [|done]. apply (IH t); [|exact H]. clear H IH. unfold failThenShell in E. cbn [hrun hstep] in E.
  rewrite bool_decide_false in E by (rewrite Hr; apply not_elem_of_empty).
  pose proof (start_running 0 (Answer true false) s) as R1. cbn [a_read a_create andb] in R1. rewrite Hr in R1. set (s1 := procStart 0 (Answer true false) s) in *. clearbody s1.
  rewrite bool_decide_false in E by (rewrite R1; apply not_elem_of_empty).
  pose proof (start_running 0 (Answer true true) s1) as R2. cbn [a_read a_create andb] in R2. rewrite R1 in R2. set (s2 := procStart 0 (Answer true true) s1) in *. clearbody s2.
  injection E as <-. rewrite close_all_running, R2. set_solver.
Qed.
