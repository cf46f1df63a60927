(** The invariant of every history of calls. *)
From Coq Require Import List NArith Lia Bool Arith.
From Coq Require Import ZifyBool ZifyNat ZifyN.
From Verif Require Import Base ByteMath_Model ByteMath_Proofs BufferUtil_Model Session_Model Session_Spec Session_Proofs.
Import ListNotations.

Definition single (t : table) : Prop := forall i j eid, session_at t i eid -> session_at t j eid -> i = j.
Definition half : N := (128 * 256 ^ 11)%N.
Definition ivs_ok (t : table) : Prop := forall i, i < length t -> e_state (at_ t i) <> Unused ->
  length (e_iv (at_ t i)) = 12 /\ bytes_ok (e_iv (at_ t i)) /\ (half <= be_value (e_iv (at_ t i)))%N.

Lemma session_at_upd_eq : forall t i e' eid, i < length t ->
  (session_at (upd t i e') i eid <-> e_eid e' = eid /\ e_state e' <> Unused).
Proof.
  intros t i e' eid L. unfold session_at. rewrite length_upd, at_upd_eq by auto. tauto.
Qed.
Lemma session_at_upd_neq : forall t i j e' eid, i <> j -> (session_at (upd t i e') j eid <-> session_at t j eid).
Proof. intros t i j e' eid N0. unfold session_at. now rewrite length_upd, at_upd_neq. Qed.

Lemma single_get : forall t i eid, single t -> session_at t i eid -> get_session t eid = Some i.
Proof.
  intros t i eid S H. destruct (get_session t eid) as [j|] eqn:G.
  - f_equal. eapply S; [apply get_session_some; eauto|eauto].
  - exfalso. eapply get_session_none; eauto.
Qed.

(** Replacing the entry of a peer's session, or a free one, by another session with this peer. *)
Lemma single_upd : forall t i e' eid, single t -> e_eid e' = eid ->
  session_at t i eid \/ (get_session t eid = None) -> single (upd t i e').
Proof.
  intros t i e' eid S E H a b x A B.
  assert (LI: i < length t \/ length t <= i) by lia. destruct LI as [LI|LI]; [|rewrite upd_out in A, B by auto; eapply S; eauto].
  destruct (Nat.eq_dec a i) as [->|NA]; destruct (Nat.eq_dec b i) as [->|NB]; auto.
  - apply session_at_upd_eq in A; auto. rewrite session_at_upd_neq in B by auto. destruct A as (A1 & A2).
    assert (x = eid) as -> by congruence. destruct H as [H|H]; [exact (S _ _ _ H B)|].
    exfalso. exact (get_session_none _ _ H _ B).
  - apply session_at_upd_eq in B; auto. rewrite session_at_upd_neq in A by auto. destruct B as (B1 & B2).
    assert (x = eid) as -> by congruence. destruct H as [H|H]; [exact (S _ _ _ A H)|].
    exfalso. exact (get_session_none _ _ H _ A).
  - rewrite session_at_upd_neq in A, B by auto. eapply S; eauto.
Qed.

Lemma increment_cases : forall iv iv' st, length iv = 12 -> bytes_ok iv -> increment_byte_array iv false = (iv', st) ->
  (st = CM_OK /\ length iv' = 12 /\ bytes_ok iv' /\ be_value iv' = (be_value iv + 1)%N) \/ (st <> CM_OK /\ iv' = iv).
Proof.
  intros iv iv' st L B H. assert (NE: iv <> []) by (intros ->; discriminate).
  pose proof (be_value_bound iv B) as BD. rewrite L in BD.
  destruct (N.lt_ge_cases (be_value iv + 1) (256 ^ N.of_nat 12)) as [LT|GE].
  - destruct (increment_correct iv false NE B ltac:(rewrite L; exact LT)) as (l' & Q & Q1 & Q2 & Q3).
    rewrite Q in H. injection H as <- <-. left. rewrite Q1. auto.
  - pose proof (increment_boundary iv false NE B ltac:(rewrite L; lia)) as Q. rewrite Q in H. injection H as <- <-.
    right. split; [discriminate|reflexivity].
Qed.

Lemma start_iv : length (0x80%N :: zeros 11) = 12 /\ bytes_ok (0x80%N :: zeros 11) /\ be_value (0x80%N :: zeros 11) = half.
Proof. split; [reflexivity|]. split; [|vm_compute; reflexivity]. repeat constructor. Qed.

Record inv (t : table) (es : list event) : Prop := Inv {
  i_single : single t;
  i_ivs : ivs_ok t;
  i_view : forall eid, reflected t eid (view es eid)
}.

Lemma view_snoc : forall es e eid, view (es ++ [e]) eid = observe eid (view es eid) e.
Proof. intros. unfold view. now rewrite fold_left_app. Qed.

(** The part of the invariant about keys. *)
Record fresh (t : table) (es : list event) : Prop := Fresh {
  f_key : forall i eid, session_at t i eid -> usable (e_state (at_ t i)) = true -> In (e_key (at_ t i)) (agreed_keys es);
  f_diff : forall i j x y, session_at t i x -> session_at t j y -> usable (e_state (at_ t i)) = true ->
    usable (e_state (at_ t j)) = true -> e_key (at_ t i) = e_key (at_ t j) -> i = j;
  f_old : forall k iv, In (k, iv) (uses es) -> In k (agreed_keys es);
  f_le : forall i eid iv, session_at t i eid -> usable (e_state (at_ t i)) = true -> In (e_key (at_ t i), iv) (uses es) ->
    (be_value iv <= be_value (e_iv (at_ t i)))%N;
  f_nodup : NoDup (uses es)
}.

Lemma reflected_upd_other : forall t i e' x p, (forall eid, session_at t i eid -> eid <> x) ->
  (e_eid e' = x -> e_state e' = Unused) -> reflected t x p -> reflected (upd t i e') x p.
Proof.
  intros t i e' x p O E R.
  assert (LI: i < length t \/ length t <= i) by lia. destruct LI as [LI|LI]; [|rewrite upd_out by auto; auto].
  assert (K: forall j, session_at (upd t i e') j x <-> (i <> j /\ session_at t j x)).
  { intros j. destruct (Nat.eq_dec i j) as [<-|Ne].
    - rewrite session_at_upd_eq by auto. split; [intros (A & B); exfalso; auto|intros (A & _); congruence].
    - rewrite session_at_upd_neq by auto. tauto. }
  destruct p as [| |k]; cbn [reflected] in *.
  - intros j H. apply K in H. apply (R j). tauto.
  - destruct R as (j & R1 & R2). exists j. assert (i <> j) by (intros ->; apply (O x R1); reflexivity).
    rewrite K, at_upd_neq by auto. auto.
  - destruct R as (j & R1 & R2). exists j. assert (i <> j) by (intros ->; apply (O x R1); reflexivity).
    rewrite K, at_upd_neq by auto. auto.
Qed.

(** Replacing the entry of the session with [eid]. *)
Lemma reflected_upd_self : forall t i e' eid p, i < length t -> e_eid e' = eid -> e_state e' <> Unused ->
  match p with NoSession => False | Pending => e_state e' = Setup | Active k => usable (e_state e') = true /\ e_key e' = k end ->
  reflected (upd t i e') eid p.
Proof.
  intros t i e' eid p L E S H. destruct p as [| |k]; cbn [reflected]; [contradiction| |]; exists i;
    rewrite session_at_upd_eq, at_upd_eq by auto; tauto.
Qed.

Lemma session_at_eid : forall t i a b, session_at t i a -> session_at t i b -> a = b.
Proof. intros t i a b (_ & A & _) (_ & B & _). congruence. Qed.

Lemma ivs_upd : forall t i e', ivs_ok t -> (i < length t -> e_state e' <> Unused ->
  length (e_iv e') = 12 /\ bytes_ok (e_iv e') /\ (half <= be_value (e_iv e'))%N) -> ivs_ok (upd t i e').
Proof.
  intros t i e' H E j L S. rewrite length_upd in L. destruct (Nat.eq_dec i j) as [<-|Ne].
  - rewrite at_upd_eq in * by auto. auto.
  - rewrite at_upd_neq in * by auto. auto.
Qed.

(** The view of a peer with a session. *)
Lemma view_of : forall t es i eid, inv t es -> session_at t i eid ->
  view es eid = if usable (e_state (at_ t i)) then Active (e_key (at_ t i)) else Pending.
Proof.
  intros t es i eid J H. pose proof (i_view t es J eid) as V. destruct (view es eid) as [| |k]; cbn [reflected] in V.
  - exfalso. eapply V; eauto.
  - destruct V as (j & V1 & V2). assert (i = j) as <- by (eapply (i_single t es J); eauto). rewrite V2. reflexivity.
  - destruct V as (j & V1 & V2 & V3). assert (i = j) as <- by (eapply (i_single t es J); eauto). now rewrite V2, V3.
Qed.

Lemma change_inv : forall t t' ev es, inv t es -> change t t' ev -> inv t' (es ++ [ev]).
Proof.
  intros t t' ev es J C. pose proof J as [S IV V].
  assert (SELF: forall i e' eid, session_at t i eid -> e_eid e' = eid -> e_state e' <> Unused ->
     e_iv e' = e_iv (at_ t i) -> single (upd t i e') /\ ivs_ok (upd t i e')).
  { intros i e' eid A E U Q. split; [eapply single_upd; eauto|]. apply ivs_upd; auto. intros L _. rewrite Q. apply IV; auto.
    destruct A as (_ & _ & A). exact A. }
  assert (OTHER: forall i e' eid x p, session_at t i eid -> e_eid e' = eid -> x <> eid -> reflected t x p -> reflected (upd t i e') x p).
  { intros i e' eid x p A E Ne R. apply reflected_upd_other; auto.
    - intros y Y ->. apply Ne. eapply session_at_eid; eauto.
    - congruence. }
  destruct C.
  - constructor; auto. intros eid. rewrite view_snoc. cbn [observe]. apply V.
  - constructor; auto. intros eid. rewrite view_snoc. cbn [observe]. apply V.
  - constructor; auto. intros x. rewrite view_snoc. cbn [observe]. apply V.
  - assert (A: session_at t i eid \/ get_session t eid = None) by (destruct H0 as [H0|(H0 & _)]; [left; now apply get_session_some|auto]).
    constructor.
    + eapply single_upd; eauto.
    + apply ivs_upd; auto. intros L _. rewrite H3. destruct start_iv as (I1 & I2 & I3). rewrite I3. split; [auto|split; [auto|lia]].
    + intros x. rewrite view_snoc. cbn [observe]. destruct (N.eqb_spec eid x) as [<-|Ne].
      * apply reflected_upd_self; auto; rewrite H2; try discriminate; reflexivity.
      * apply reflected_upd_other; auto; [|congruence]. intros y Y ->. destruct H0 as [H0|(_ & H0)].
        -- apply get_session_some in H0. apply Ne. eapply session_at_eid; eauto.
        -- destruct Y as (_ & _ & Y). congruence.
  - pose proof (get_session_some _ _ _ H) as A. pose proof A as (L & _).
    destruct (SELF i e' eid A H1 ltac:(rewrite H2; discriminate) H3) as (S' & I').
    constructor; auto. intros x. rewrite view_snoc. cbn [observe]. destruct (N.eqb_spec eid x) as [<-|Ne].
    + rewrite (view_of _ _ _ _ J A), H0. cbn [usable]. apply reflected_upd_self; auto. rewrite H2. discriminate.
    + apply (OTHER i e' eid); auto.
  - pose proof (get_session_some _ _ _ H) as A. pose proof A as (L & _).
    destruct (SELF i e' eid A H1 ltac:(rewrite H2; discriminate) H3) as (S' & I').
    constructor; auto. intros x. rewrite view_snoc. cbn [observe]. destruct (N.eqb_spec eid x) as [<-|Ne].
    + apply reflected_upd_self; auto; rewrite H2; try discriminate; split; reflexivity.
    + apply (OTHER i e' eid); auto.
  - pose proof (get_session_some _ _ _ H) as A. pose proof A as (L & E & U). destruct (IV i L U) as (I1 & I2 & I3).
    destruct (increment_cases _ _ _ I1 I2 H1) as [(_ & Q1 & Q2 & Q3)|(Q & _)]; [|congruence].
    constructor.
    + eapply single_upd; eauto.
    + apply ivs_upd; auto. intros _ _. cbn [set_e_iv e_iv]. split; [auto|split; [auto|lia]].
    + intros x. rewrite view_snoc. cbn [observe]. destruct (N.eq_dec x eid) as [->|Ne].
      * rewrite (view_of _ _ _ _ J A), H0. apply reflected_upd_self; auto.
      * apply (OTHER i _ eid); auto.
  - pose proof (get_session_some _ _ _ H) as A. pose proof A as (L & E & U). destruct (IV i L U) as (I1 & I2 & I3).
    destruct (increment_cases _ _ _ I1 I2 H1) as [(Q & _)|(_ & ->)]; [congruence|].
    assert (upd t i (set_e_iv (at_ t i) (e_iv (at_ t i))) = t) as ->.
    { unfold set_e_iv. rewrite entry_eta. now apply upd_at. }
    constructor; auto. intros x. rewrite view_snoc. cbn [observe]. apply V.
  - pose proof (get_session_some _ _ _ H) as A. pose proof A as (L & E & U). constructor.
    + intros a b x X Y. destruct (Nat.eq_dec a i) as [->|NA]; [apply session_at_upd_eq in X; auto; destruct X as (_ & X); now contradiction X|].
      destruct (Nat.eq_dec b i) as [->|NB]; [apply session_at_upd_eq in Y; auto; destruct Y as (_ & Y); now contradiction Y|].
      rewrite session_at_upd_neq in X, Y by auto. eapply S; eauto.
    + apply ivs_upd; auto. intros _ B. now contradiction B.
    + intros x. rewrite view_snoc. cbn [observe]. destruct (N.eqb_spec eid x) as [<-|Ne].
      * cbn [reflected]. intros j B. destruct (Nat.eq_dec i j) as [<-|NI].
        -- apply session_at_upd_eq in B; auto. destruct B as (_ & B). now contradiction B.
        -- rewrite session_at_upd_neq in B by auto. apply NI. eapply S; eauto.
      * apply reflected_upd_other; auto. intros y Y ->. apply Ne. eapply session_at_eid; eauto.
  - pose proof (get_session_some _ _ _ H) as A. pose proof A as (L & E & U). 
    destruct (SELF i (set_e_state (set_e_key (at_ t i) k) s) eid A E (usable_used s H1) eq_refl) as (S' & I').
    constructor; auto. intros x. rewrite view_snoc. cbn [observe]. destruct (N.eqb_spec eid x) as [<-|Ne].
    + apply reflected_upd_self; auto. apply (usable_used s H1).
    + apply (OTHER i _ eid); auto.
  - pose proof (get_session_some _ _ _ H) as A. pose proof A as (L & E & U).
    destruct (SELF i (set_e_state (at_ t i) s) eid A E (usable_used s H1) eq_refl) as (S' & I').
    constructor; auto. intros x. rewrite view_snoc.
    assert (observe x (view es x) ev = view es x) as -> by (destruct H2 as [->|(st & ->)]; reflexivity).
    destruct (N.eq_dec x eid) as [->|Ne].
    + rewrite (view_of _ _ _ _ J A), H0. apply reflected_upd_self; auto. apply (usable_used s H1).
    + apply (OTHER i _ eid); auto.
Qed.

Lemma agreed_snoc : forall es e, agreed_keys (es ++ [e]) = agreed_keys es ++ agreed_keys [e].
Proof. intros. unfold agreed_keys. apply flat_map_app. Qed.
Lemma uses_snoc : forall es e, uses (es ++ [e]) = uses es ++ uses [e].
Proof. intros. unfold uses. apply flat_map_app. Qed.

Lemma NoDup_snoc : forall (A : Type) (l : list A) x, NoDup l -> ~ In x l -> NoDup (l ++ [x]).
Proof.
  intros A l x H N0. induction H as [|y l Y H IH]; cbn; [repeat constructor; auto|].
  constructor.
  - intros I0. apply in_app_or in I0. destruct I0 as [I0|[<-|[]]]; [auto|apply N0; now left].
  - apply IH. intros I0. apply N0. now right.
Qed.

Lemma NoDup_prefix : forall (A : Type) (l r : list A), NoDup (l ++ r) -> NoDup l.
Proof.
  induction l as [|x l IH]; intros r H; [constructor|]. cbn in H. inversion H; subst. constructor; eauto.
  intros I0. apply H2. apply in_or_app. now left.
Qed.

Lemma NoDup_snoc_inv : forall (A : Type) (l : list A) x, NoDup (l ++ [x]) -> NoDup l /\ ~ In x l.
Proof.
  intros A l x H. split.
  - apply (NoDup_prefix _ l [x]); auto.
  - pose proof (NoDup_remove_2 l [] x) as R. rewrite app_nil_r in R. now apply R.
Qed.

(** An entry replaced by one with the same key, or one that is not usable. *)
Lemma fresh_upd : forall t es es' i e', i < length t -> fresh t es -> agreed_keys es' = agreed_keys es -> uses es' = uses es ->
  (usable (e_state e') = true -> usable (e_state (at_ t i)) = true /\ e_key e' = e_key (at_ t i) /\ e_iv e' = e_iv (at_ t i)) ->
  fresh (upd t i e') es'.
Proof.
  intros t es es' i e' L [F1 F2 F3 F4 F5] A U H.
  assert (K: forall j eid, session_at (upd t i e') j eid -> usable (e_state (at_ (upd t i e') j)) = true ->
     session_at t j (e_eid (at_ t j)) /\ usable (e_state (at_ t j)) = true /\ e_key (at_ (upd t i e') j) = e_key (at_ t j) /\
     e_iv (at_ (upd t i e') j) = e_iv (at_ t j)).
  { intros j eid B W. destruct (Nat.eq_dec i j) as [<-|Ne].
    - rewrite at_upd_eq in * by auto. destruct (H W) as (H1 & H2 & H3). split; [|auto]. split; [auto|]. split; [auto|]. now apply usable_used.
    - rewrite at_upd_neq in * by auto. rewrite session_at_upd_neq in B by auto. split; [|auto]. destruct B as (B1 & B2 & B3). split; auto. }
  constructor.
  - intros j eid B W. destruct (K j eid B W) as (K1 & K2 & K3 & K4). rewrite K3, A. eauto.
  - intros a b x y BA BB WA WB E. destruct (K a x BA WA) as (K1 & K2 & K3 & K4). destruct (K b y BB WB) as (Q1 & Q2 & Q3 & Q4).
    rewrite K3, Q3 in E. eauto.
  - rewrite U, A. auto.
  - intros j eid iv B W I0. destruct (K j eid B W) as (K1 & K2 & K3 & K4). rewrite K3, U in I0. rewrite K4. eauto.
  - now rewrite U.
Qed.

(** A new key that was not in use before. *)
Lemma fresh_new : forall t es ev i e' k, i < length t -> fresh t es -> agreed_keys [ev] = [k] -> uses [ev] = [] ->
  e_key e' = k -> ~ In k (agreed_keys es) -> fresh (upd t i e') (es ++ [ev]).
Proof.
  intros t es ev i e' k L [F1 F2 F3 F4 F5] A U EK N0.
  assert (US: uses (es ++ [ev]) = uses es) by (rewrite uses_snoc, U; apply app_nil_r).
  assert (AS: agreed_keys (es ++ [ev]) = agreed_keys es ++ [k]) by (now rewrite agreed_snoc, A).
  constructor.
  - intros j eid B W. rewrite AS. apply in_or_app. destruct (Nat.eq_dec i j) as [<-|Ne].
    + rewrite at_upd_eq by auto. right. left. auto.
    + rewrite at_upd_neq in * by auto. rewrite session_at_upd_neq in B by auto. left. eauto.
  - intros a b x y BA BB WA WB E. destruct (Nat.eq_dec i a) as [<-|NA]; destruct (Nat.eq_dec i b) as [<-|NB]; auto.
    + rewrite at_upd_eq in E by auto. rewrite at_upd_neq in E, WB by auto. rewrite session_at_upd_neq in BB by auto.
      exfalso. apply N0. rewrite <- EK, E. eauto.
    + rewrite at_upd_eq in E by auto. rewrite at_upd_neq in E, WA by auto. rewrite session_at_upd_neq in BA by auto.
      exfalso. apply N0. rewrite <- EK, <- E. eauto.
    + rewrite !at_upd_neq in E by auto. rewrite at_upd_neq in WA, WB by auto. rewrite session_at_upd_neq in BA, BB by auto. eauto.
  - intros k' iv I0. rewrite US in I0. rewrite AS. apply in_or_app. left. eauto.
  - intros j eid iv B W I0. rewrite US in I0. destruct (Nat.eq_dec i j) as [<-|Ne].
    + rewrite at_upd_eq in I0 by auto. exfalso. apply N0. rewrite <- EK. eauto.
    + rewrite !at_upd_neq by auto. rewrite at_upd_neq in W, I0 by auto. rewrite session_at_upd_neq in B by auto. eauto.
  - now rewrite US.
Qed.

Lemma change_fresh : forall t t' ev es, inv t es -> fresh t es -> change t t' ev -> NoDup (agreed_keys (es ++ [ev])) ->
  fresh t' (es ++ [ev]).
Proof.
  intros t t' ev es J F C ND. pose proof J as [S IV V].
  assert (SAME: forall e, agreed_keys [e] = [] -> uses [e] = [] -> agreed_keys (es ++ [e]) = agreed_keys es /\ uses (es ++ [e]) = uses es).
  { intros e A U. rewrite agreed_snoc, uses_snoc, A, U, !app_nil_r. auto. }
  assert (STAY: forall e, agreed_keys [e] = [] -> uses [e] = [] -> fresh t (es ++ [e])).
  { intros e A U. destruct (SAME e A U) as (A1 & U1). destruct F as [F1 F2 F3 F4 F5]. constructor; rewrite ?A1, ?U1; auto. }
  destruct C.
  - now apply STAY.
  - now apply STAY.
  - now apply STAY.
  - destruct (SAME (Added eid) eq_refl eq_refl) as (A1 & U1). apply (fresh_upd t es); auto. rewrite H2. discriminate.
  - destruct (SAME (Failed st) eq_refl eq_refl) as (A1 & U1). apply (fresh_upd t es); auto; [|rewrite H2; discriminate].
    apply get_session_some in H. destruct H as (L & _). exact L.
  - apply get_session_some in H. destruct H as (L & _). rewrite agreed_snoc in ND. cbn in ND. apply NoDup_snoc_inv in ND.
    apply (fresh_new t es _ i e' (e_key e')); auto. tauto.
  - pose proof (get_session_some _ _ _ H) as A. pose proof A as (L & E & U). destruct (IV i L U) as (I1 & I2 & I3).
    destruct (increment_cases _ _ _ I1 I2 H1) as [(_ & Q1 & Q2 & Q3)|(Q & _)]; [|congruence].
    destruct F as [F1 F2 F3 F4 F5].
    assert (AS: agreed_keys (es ++ [Encrypted eid (e_key (at_ t i)) iv]) = agreed_keys es) by (rewrite agreed_snoc; apply app_nil_r).
    assert (US: uses (es ++ [Encrypted eid (e_key (at_ t i)) iv]) = uses es ++ [(e_key (at_ t i), iv)]) by (now rewrite uses_snoc).
    assert (K: forall j x, session_at (upd t i (set_e_iv (at_ t i) iv)) j x -> session_at t j x).
    { intros j x B. destruct (Nat.eq_dec i j) as [<-|Ne]; [|now rewrite session_at_upd_neq in B by auto].
      apply session_at_upd_eq in B; auto. destruct B as (B1 & B2). split; auto. }
    assert (K2: forall j, e_key (at_ (upd t i (set_e_iv (at_ t i) iv)) j) = e_key (at_ t j) /\ e_state (at_ (upd t i (set_e_iv (at_ t i) iv)) j) = e_state (at_ t j)).
    { intros j. destruct (Nat.eq_dec i j) as [<-|Ne]; [rewrite at_upd_eq by auto; auto|rewrite at_upd_neq by auto; auto]. }
    constructor.
    + intros j x B W. destruct (K2 j) as (K3 & K4). rewrite K4 in W. rewrite K3, AS. eauto.
    + intros a b x y BA BB WA WB Q. destruct (K2 a) as (K3 & K4). destruct (K2 b) as (K5 & K6). rewrite K4 in WA. rewrite K6 in WB. rewrite K3, K5 in Q. eauto.
    + intros k v I0. rewrite AS. rewrite US in I0. apply in_app_or in I0. destruct I0 as [I0|[I0|[]]]; [eauto|]. injection I0 as <- <-. eauto.
    + intros j x v B W I0. destruct (K2 j) as (K3 & K4). rewrite K4 in W. rewrite K3, US in I0.
      destruct (Nat.eq_dec i j) as [<-|Ne].
      * rewrite at_upd_eq by auto. cbn [set_e_iv e_iv]. rewrite Q3. apply in_app_or in I0. destruct I0 as [I0|[I0|[]]].
        -- pose proof (F4 i eid v A W I0). lia.
        -- injection I0 as <-. lia.
      * rewrite at_upd_neq by auto. apply in_app_or in I0. destruct I0 as [I0|[I0|[]]]; [eauto|].
        exfalso. apply Ne. eapply F2; eauto. congruence.
    + rewrite US. apply NoDup_snoc; auto. intros I0. pose proof (F4 i eid iv A H0 I0). lia.
  - pose proof (get_session_some _ _ _ H) as A. pose proof A as (L & E & U). destruct (IV i L U) as (I1 & I2 & I3).
    destruct (increment_cases _ _ _ I1 I2 H1) as [(Q & _)|(_ & ->)]; [congruence|].
    assert (upd t i (set_e_iv (at_ t i) (e_iv (at_ t i))) = t) as ->.
    { unfold set_e_iv. rewrite entry_eta. now apply upd_at. }
    now apply STAY.
  - apply get_session_some in H. destruct H as (L & _). destruct (SAME (Removed eid) eq_refl eq_refl) as (A1 & U1).
    apply (fresh_upd t es); auto. discriminate.
  - apply get_session_some in H. destruct H as (L & _). rewrite agreed_snoc in ND. cbn in ND. apply NoDup_snoc_inv in ND.
    apply (fresh_new t es _ i _ k); auto. tauto.
  - apply get_session_some in H. destruct H as (L & _).
    assert (E: agreed_keys [ev] = [] /\ uses [ev] = []) by (destruct H2 as [->|(st & ->)]; auto). destruct E as (E1 & E2).
    destruct (SAME ev E1 E2) as (A1 & U1). apply (fresh_upd t es); auto.
Qed.

Lemma init_inv : forall n, inv (init_table n) [] /\ fresh (init_table n) [].
Proof.
  intros n. assert (A: forall i, at_ (init_table n) i = blank_entry).
  { intros i. unfold at_, init_table. apply nth_repeat. }
  assert (B: forall i eid, ~ session_at (init_table n) i eid) by (intros i eid (_ & _ & H); rewrite A in H; now contradiction H).
  split; constructor.
  - intros i j eid H. exfalso. eapply B; eauto.
  - intros i _ H. rewrite A in H. now contradiction H.
  - intros eid i. apply B.
  - intros i eid H. exfalso. eapply B; eauto.
  - intros i j x y H. exfalso. eapply B; eauto.
  - intros k iv [].
  - intros i eid iv H. exfalso. eapply B; eauto.
  - constructor.
Qed.

Section Run.
Variable enc : list N -> list N -> list N -> list N * list N.
Variable dec : list N -> list N -> list N -> list N -> option (list N).
Variable hmac : list N -> list N -> list N.
Variable kdf : list N -> list N -> list N -> list N.
Variable pairing : list N.
Variable store : bool.
Notation run := (run enc dec hmac kdf pairing store).

Lemma run_inv : forall l t t' es0 es, inv t es0 -> run t l = (t', es) -> inv t' (es0 ++ es).
Proof.
  induction l as [|o l IH]; intros t t' es0 es J H; cbn [Session_Model.run] in H.
  - injection H as <- <-. now rewrite app_nil_r.
  - destruct (step enc dec hmac kdf pairing store t o) as [t1 e] eqn:E1.
    destruct (run t1 l) as [t2 es'] eqn:E2. injection H as <- <-.
    pose proof (change_inv _ _ _ _ J (step_change _ _ _ _ _ _ _ _ _ _ E1)) as J1.
    specialize (IH t1 t2 _ es' J1 E2). now rewrite <- app_assoc in IH.
Qed.

Lemma run_fresh : forall l t t' es0 es, inv t es0 -> fresh t es0 -> NoDup (agreed_keys (es0 ++ es)) -> run t l = (t', es) ->
  fresh t' (es0 ++ es).
Proof.
  induction l as [|o l IH]; intros t t' es0 es J F ND H; cbn [Session_Model.run] in H.
  - injection H as <- <-. now rewrite app_nil_r.
  - destruct (step enc dec hmac kdf pairing store t o) as [t1 e] eqn:E1.
    destruct (run t1 l) as [t2 es'] eqn:E2. injection H as <- <-.
    pose proof (step_change _ _ _ _ _ _ _ _ _ _ E1) as C.
    assert (ND1: NoDup (agreed_keys ((es0 ++ [e]) ++ es'))) by (rewrite <- app_assoc; exact ND).
    assert (ND2: NoDup (agreed_keys (es0 ++ [e]))).
    { unfold agreed_keys in *. rewrite flat_map_app in ND1. now apply NoDup_prefix in ND1. }
    specialize (IH t1 t2 (es0 ++ [e]) es' (change_inv _ _ _ _ J C) (change_fresh _ _ _ _ J F C ND2) ND1 E2).
    now rewrite <- app_assoc in IH.
Qed.

(** The state before an event of a history. *)
Lemma run_split : forall l t t' es e1 ev e2, run t l = (t', es) -> es = e1 ++ ev :: e2 ->
  exists l1 o l2 t1 t2, l = l1 ++ o :: l2 /\ run t l1 = (t1, e1) /\ step enc dec hmac kdf pairing store t1 o = (t2, ev) /\ run t2 l2 = (t', e2).
Proof.
  induction l as [|o l IH]; intros t t' es e1 ev e2 H Q; cbn [Session_Model.run] in H.
  - injection H as <- <-. destruct e1; discriminate.
  - destruct (step enc dec hmac kdf pairing store t o) as [t1 e] eqn:E1.
    destruct (run t1 l) as [t2 es'] eqn:E2. injection H as <- <-. destruct e1 as [|x e1].
    + cbn in Q. assert (e = ev) by congruence. assert (es' = e2) by congruence. subst e es'.
      exists [], o, l, t, t1. auto.
    + cbn in Q. assert (e = x) by congruence. assert (E3: es' = e1 ++ ev :: e2) by congruence. subst x.
      destruct (IH t1 t2 es' e1 ev e2 E2 E3) as (l1 & o' & l2 & a & b & -> & A1 & A2 & A3).
      exists (o :: l1), o', l2, a, b. split; [reflexivity|]. split; [|auto]. cbn [Session_Model.run]. rewrite E1, A1. reflexivity.
Qed.
End Run.
