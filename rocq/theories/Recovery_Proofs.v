(** Proofs about the recovery image manager. *)
From Coq Require Import List NArith ZArith Lia Bool Arith ZifyBool ZifyNat ZifyN.
From Verif Require Import Base Flash_Base FlashUtil_Model FlashUtil_Proofs FlashUpdater_Model FlashUpdater_Proofs
  Recovery_Model Recovery_Spec.
Import ListNotations.
Local Open Scope N_scope.

Lemma set_same : forall A (f : bool -> A) r x, set f r x r = x.
Proof. intros. unfold set. now rewrite Bool.eqb_reflx. Qed.
Lemma set_other : forall A (f : bool -> A) r q x, q <> r -> set f r x q = f q.
Proof. intros. unfold set. destruct (Bool.eqb_spec q r); [contradiction|auto]. Qed.

Lemma in_firstn : forall A k (l : list A) x, In x (firstn k l) -> In x l.
Proof. intros A k l x H. rewrite <- (firstn_skipn k l). apply in_or_app. auto. Qed.
Lemma in_skipn : forall A k (l : list A) x, In x (skipn k l) -> In x l.
Proof. intros A k l x H. rewrite <- (firstn_skipn k l). apply in_or_app. auto. Qed.

(** Gets in progress on a valid region. *)
Definition pending (g : list (bool * bool)) (r : bool) : nat := length (filter (fun p => Bool.eqb (fst p) r && snd p) g).

Lemma pending_app : forall a b r, pending (a ++ b) r = (pending a r + pending b r)%nat.
Proof. intros. unfold pending. now rewrite filter_app, app_length. Qed.

Lemma pending_out : forall g k r q b, nth_error g k = Some (q, b) ->
  pending g r = (pending (firstn k g ++ skipn (S k) g) r + (if Bool.eqb q r && b then 1 else 0))%nat.
Proof.
  intros g k r q b H. rewrite <- (firstn_skipn k g) at 1.
  assert (S0: skipn k g = (q, b) :: skipn (S k) g).
  { revert k H. induction g as [|x g IH]; intros [|k] H; try discriminate; [now injection H as ->|exact (IH k H)]. }
  rewrite S0, !pending_app. unfold pending at 2. cbn [filter fst snd]. destruct (Bool.eqb q r && b); cbn [length]; unfold pending; lia.
Qed.

Lemma upd_write_off : forall wres u m d, u_off u <= u_max u -> N.of_nat (length d) + u_max u < 2 ^ 32 ->
  u_off (fst (fst (upd_write wres u m d))) <= u_max u.
Proof.
  intros wres u m d H L. unfold upd_write. rewrite w32_small by lia. destruct (N.ltb_spec (u_max u) (u_off u + N.of_nat (length d))) as [X|X].
  - cbn. lia.
  - unfold dev_write. destruct (wres _) as [n|]; cbn [fst u_off]; [|lia]. rewrite w32_small; lia.
Qed.

Section Proofs.
Variable V : Type.
Variable verify : V -> list N -> verdict.
Variable c : rcfg.
Hypothesis C : rcfg_ok c.

Record inv (s : mgr) (h : bool -> nat) (w : nat * bool) : Prop := Inv {
  i_ref : forall r, m_ref s r = (h r + pending (m_getting s) r)%nat;
  i_get : Forall (fun p => m_valid s (fst p) = snd p) (m_getting s);
  i_valid : forall r, m_valid s r = true -> r = get_region c (m_active s) true;
  i_updating : forall q, m_updating s = Some q -> q = get_region c (m_active s) false /\ m_valid s q = false /\ m_ref s q = 0%nat;
  i_count : length (m_getting s) = fst w;
  i_clear : match m_clearing s with Some n => snd w = true /\ m_updating s <> None /\ n <= r_size c | None => snd w = false end;
  i_upd : forall r, u_base (m_upd s r) = r_base c r /\ u_max (m_upd s r) = r_size c /\ u_off (m_upd s r) <= r_size c;
  i_one : r_two c = false -> m_ref s true = 0%nat
}.

Lemma inv_init : forall m a v s, init V verify c m a v = Some s -> inv s (fun _ => 0%nat) (0%nat, false).
Proof.
  intros m a v s H. unfold init in H.
  assert (X: exists ok, s = Mgr m (set (fun _ => false) (get_region c a true) ok) (fun _ => 0%nat) (fun q => upd_init (r_base c q) (r_size c)) None a [] None).
  { destruct (verify v _); [injection H as <-; eauto|injection H as <-; eauto|discriminate]. }
  destruct X as (ok & ->). constructor; cbn; auto; try discriminate.
  - intros r Q. unfold set in Q. destruct (Bool.eqb_spec r (get_region c a true)); [auto|discriminate].
  - intros r. repeat split; auto; lia.
Qed.

Lemma other_region : forall a, r_two c = true -> get_region c a true <> get_region c a false.
Proof. intros a T. unfold get_region. rewrite T. destruct a; discriminate. Qed.
Lemma one_region : forall a b, r_two c = false -> get_region c a b = false.
Proof. intros a b T. unfold get_region. now rewrite T. Qed.

(** The flash outside the blocks of region [q] is as before, so region [r] is. *)
Lemma contents_apart : forall m m' q r, r_two c = true -> r <> q ->
  (forall x, (forall y, r_base c q <= y < r_base c q + r_size c -> y / r_blk c <> x / r_blk c) -> m' x = m x) ->
  contents c m' r = contents c m r.
Proof.
  intros m m' q r T N H. unfold contents. apply img_read_ext. intros i Hi. apply H. intros y Hy E.
  pose proof (rc_apart c C T) as A. destruct r, q; try congruence.
  - apply (A y (r_base c true + N.of_nat i)); [lia|lia|exact E].
  - apply (A (r_base c false + N.of_nat i) y); [lia|lia|symmetry; exact E].
Qed.

Lemma pending_in : forall g r, pending g r <> 0%nat -> In (r, true) g.
Proof.
  intros g r H. unfold pending in H. destruct (filter (fun p => Bool.eqb (fst p) r && snd p) g) as [|[a b] t] eqn:F; [now elim H|].
  assert (I0: In (a, b) (filter (fun p => Bool.eqb (fst p) r && snd p) g)) by (rewrite F; now left).
  apply filter_In in I0. destruct I0 as (I0 & B). cbn in B. destruct (Bool.eqb_spec a r); [subst|discriminate]. destruct b; [auto|discriminate].
Qed.

Definition op_legal (h : bool -> nat) (w : nat * bool) (o : op V) : Prop :=
  op_ok c o /\
  match o with Free _ r => (0 < h r)%nat | _ => True end /\
  match o with
  | ClearStart _ _ | Write _ _ _ | EraseAll _ _ _ => snd w = false
  | Activate _ _ => snd w = false /\ fst w = 0%nat
  | _ => True
  end.

Lemma free_valid : forall s h w r f q, inv s h w -> m_ref s r = 0%nat -> f = set (m_valid s) r false ->
  Forall (fun p => f (fst p) = snd p) (m_getting s) /\ (f q = true -> m_valid s q = true).
Proof.
  intros s h w r f q I0 R ->. split.
  - rewrite Forall_forall. intros [a b] J. pose proof (proj1 (Forall_forall _ _) (i_get _ _ _ I0) _ J) as G. cbn [fst snd] in *.
    destruct (Bool.eqb_spec a r) as [->|N]; [|now rewrite set_other].
    rewrite set_same. destruct b; [|auto]. exfalso. pose proof (i_ref _ _ _ I0 r) as Q. rewrite R in Q.
    assert (P: In (r, true) (filter (fun p => Bool.eqb (fst p) r && snd p) (m_getting s))) by (apply filter_In; split; [auto|cbn; now rewrite Bool.eqb_reflx]).
    unfold pending in Q. destruct (filter _ (m_getting s)); [contradiction|cbn in Q; lia].
  - unfold set. destruct (Bool.eqb q r); [discriminate|auto].
Qed.

(** A region changes only if nobody uses it and it is not offered afterwards. *)
Definition frame (s s' : mgr) : Prop :=
  forall r, contents c (m_flash s') r = contents c (m_flash s) r \/ (m_ref s r = 0%nat /\ m_valid s' r = false).

Lemma erase_one_spec : forall s h w r f s' a, inv s h w -> m_clearing s = None -> r = get_region c (m_active s) false \/ r = get_region c (m_active s) true ->
  erase_one c s r f = (s', a) ->
  inv s' h w /\ frame s s' /\ m_active s' = m_active s /\ m_ref s' = m_ref s /\ m_clearing s' = None /\ m_updating s' = m_updating s /\
  (forall q, m_valid s' q = true -> m_valid s q = true).
Proof.
  intros s h w r f s' a I0 CL RR H. unfold erase_one in H. destruct (Nat.eqb_spec (m_ref s r) 0) as [R|R].
  2: { injection H as <- <-. split; [auto|]. split; [left; auto|]. auto. }
  pose proof (erase_region_spec (f_erase f) (r_blk c) (m_flash s) (r_base c r) (N.to_nat (r_size c)) (rc_blk c C)) as E.
  destruct (erase_region (f_erase f) (r_blk c) (m_flash s) (r_base c r) (N.to_nat (r_size c))) as [m x]. destruct E as (E & _).
  rewrite N2Nat.id in E. injection H as <- _.
  split; [|split; [|split; [auto|split; [auto|split; [auto|split; [auto|]]]]]].
  - destruct (free_valid s h w r _ false I0 R eq_refl) as (G & _). destruct I0. constructor; cbn; auto.
    + intros q Q. apply i_valid0. unfold set in Q. destruct (Bool.eqb q r); [discriminate|auto].
    + intros q Q. destruct (i_updating0 q Q) as (A1 & A2 & A3). split; [auto|]. split; [|auto]. unfold set. destruct (Bool.eqb q r); auto.
  - intros q. cbn [m_flash m_valid]. destruct (Bool.eqb_spec q r) as [->|N]; [right; rewrite set_same; auto|].
    destruct (r_two c) eqn:T; [left; now apply (contents_apart (m_flash s) m r q)|].
    right. rewrite !one_region in RR by auto. assert (r = false) by tauto. subst r. destruct q; [|congruence].
    split; [now apply (i_one _ _ _ I0)|]. rewrite set_other by auto. destruct (m_valid s true) eqn:X; [|auto].
    apply (i_valid _ _ _ I0) in X. rewrite one_region in X; [discriminate|auto].
  - intros q. cbn. unfold set. destruct (Bool.eqb q r); [discriminate|auto].
Qed.

Lemma get_app : forall (g : list (bool * bool)) k r b, nth_error g k = Some (r, b) ->
  length (firstn k g ++ skipn (S k) g) = pred (length g).
Proof.
  intros g k r b H. assert (k < length g)%nat by (apply nth_error_Some; congruence).
  rewrite app_length, firstn_length, skipn_length. lia.
Qed.

(** Changing region [q] while it is being updated. *)
Lemma updating_frame : forall s h w q m, inv s h w -> m_updating s = Some q ->
  (forall x, (forall y, r_base c q <= y < r_base c q + r_size c -> y / r_blk c <> x / r_blk c) -> m x = m_flash s x) ->
  forall r, contents c m r = contents c (m_flash s) r \/ (m_ref s r = 0%nat /\ m_valid s r = false).
Proof.
  intros s h w q m I0 U E r. destruct (i_updating _ _ _ I0 q U) as (A1 & A2 & A3).
  destruct (Bool.eqb_spec r q) as [->|N]; [auto|]. destruct (r_two c) eqn:T; [left; now apply (contents_apart (m_flash s) m q r)|].
  right. rewrite one_region in A1 by auto. subst q. destruct r; [|congruence]. split; [now apply (i_one _ _ _ I0)|].
  destruct (m_valid s true) eqn:X; [|auto]. apply (i_valid _ _ _ I0) in X. rewrite one_region in X; [discriminate|auto].
Qed.

Lemma step_inv : forall s h w o s' a, inv s h w -> op_legal h w o -> step V verify c s o = (s', a) ->
  inv s' (held1 h (o, a)) (progress1 w (o, a)) /\ frame s s'.
Proof.
  intros s h w o s' a I0 (OK & HON & SER) H. destruct o as [|k|r|n|f|d f|v|f1 f2]; cbn [step] in H.
  - (* GetStart *) injection H as <- <-. cbn [held1 progress1]. split; [|left; auto]. unfold get_start.
    set (r := get_region c (m_active s) true). destruct I0. constructor; cbn [m_ref m_getting m_valid m_active m_updating m_clearing m_upd fst snd]; auto.
    + intros q. rewrite pending_app. unfold pending at 2. cbn [filter fst snd]. destruct (m_valid s r) eqn:VR.
      * destruct (Bool.eqb_spec r q) as [<-|N]; cbn [andb].
        -- rewrite set_same, i_ref0. cbn. lia.
        -- rewrite set_other by auto. rewrite i_ref0. cbn. lia.
      * rewrite andb_false_r. cbn. rewrite i_ref0. lia.
    + apply Forall_app. split; [auto|]. constructor; [reflexivity|constructor].
    + intros q Q. destruct (i_updating0 q Q) as (A1 & A2 & A3). split; [auto|]. split; [auto|].
      destruct (m_valid s r) eqn:VR; [|auto]. rewrite set_other; [auto|]. intros ->. congruence.
    + rewrite app_length, i_count0. cbn. lia.
    + intros T. destruct (m_valid s r); [|auto]. rewrite set_other; [auto|]. unfold r. rewrite one_region; [discriminate|auto].
  - (* GetEnd *) unfold get_end in H. destruct (nth_error (m_getting s) k) as [[r b]|] eqn:NE.
    2: { injection H as <- <-. split; [exact I0|left; auto]. }
    assert (s' = Mgr (m_flash s) (m_valid s) (m_ref s) (m_upd s) (m_updating s) (m_active s) (firstn k (m_getting s) ++ skipn (S k) (m_getting s)) (m_clearing s)) by congruence.
    assert (a = if m_valid s r then Image r else NoImage) by congruence. subst s' a. clear H. split; [|left; auto].
    pose proof (proj1 (Forall_forall _ _) (i_get _ _ _ I0) _ (nth_error_In _ _ NE)) as VB. cbn [fst snd] in VB. rewrite VB.
    destruct I0.
    assert (G: Forall (fun p => m_valid s (fst p) = snd p) (firstn k (m_getting s) ++ skipn (S k) (m_getting s))).
    { rewrite Forall_forall in i_get0 |- *. intros x X. apply i_get0. apply in_app_or in X.
      destruct X as [X|X]; [exact (in_firstn _ _ _ _ X)|exact (in_skipn _ _ _ _ X)]. }
    destruct b; cbn [held1 progress1]; constructor; cbn [m_ref m_getting m_valid m_active m_updating m_clearing m_upd fst snd]; auto.
    + intros q. rewrite i_ref0, (pending_out _ _ q _ _ NE), andb_true_r. destruct (Bool.eqb_spec r q) as [<-|N]; [rewrite set_same|rewrite set_other by auto]; lia.
    + rewrite (get_app _ _ _ _ NE). lia.
    + intros q. rewrite i_ref0, (pending_out _ _ q _ _ NE), andb_false_r. lia.
    + rewrite (get_app _ _ _ _ NE). lia.
  - (* Free *) injection H as <- <-. cbn [held1 progress1]. split; [|left; auto]. unfold free. destruct I0.
    assert (U: forall q, m_ref s q = 0%nat -> set (m_ref s) r (pred (m_ref s r)) q = 0%nat).
    { intros q Q. unfold set. destruct (Bool.eqb_spec q r) as [->|]; [rewrite Q; reflexivity|auto]. }
    constructor; cbn [m_ref m_getting m_valid m_active m_updating m_clearing m_upd fst snd]; auto.
    + intros q. unfold set. destruct (Bool.eqb_spec q r) as [->|N]; rewrite i_ref0; lia.
    + intros q Q. destruct (i_updating0 q Q) as (A1 & A2 & A3). auto.
  - (* ClearStart *) unfold clear_start in H. set (r := get_region c (m_active s) false) in *.
    destruct (Nat.eqb_spec (m_ref s r) 0) as [R|R]; [|injection H as <- <-; split; [exact I0|left; auto]].
    unfold upd_check_size in H. destruct (i_upd _ _ _ I0 r) as (U1 & U2 & U3). rewrite U2 in H.
    destruct (N.ltb_spec (r_size c) n) as [L|L]; injection H as <- <-; (split; [|left; auto]); [exact I0|].
    cbn [held1 progress1]. destruct (free_valid s h w r _ false I0 R eq_refl) as (G & _). destruct I0.
    constructor; cbn [m_ref m_getting m_valid m_active m_updating m_clearing m_upd fst snd]; auto.
    + intros q Q. apply i_valid0. unfold set in Q. destruct (Bool.eqb q r); [discriminate|auto].
    + intros q Q. injection Q as <-. split; [auto|]. rewrite set_same. auto.
    + split; [auto|]. split; [discriminate|auto].
  - (* ClearEnd *) unfold clear_end in H. destruct (m_clearing s) as [n|] eqn:CL.
    2: { injection H as <- <-. split; [|left; auto]. cbn [held1 progress1]. pose proof (i_clear _ _ _ I0) as Q. rewrite CL in Q. destruct w as [w1 w2]. cbn in *. subst w2. exact I0. }
    pose proof (i_clear _ _ _ I0) as Q. rewrite CL in Q. destruct Q as (Q1 & Q2 & Q3).
    destruct (m_updating s) as [r|] eqn:UP; [|congruence]. destruct (i_upd _ _ _ I0 r) as (U1 & U2 & U3).
    pose proof (prepare_spec (f_read f) (f_erase f) (r_blk c) (rc_blk c C) (m_upd s r) (m_flash s) n n (r_base c r) (r_size c)) as P.
    fold (prepare_for_update (f_read f) (f_erase f) (r_blk c) (m_upd s r) (m_flash s) n) in P.
    assert (UB: let '(u, m, x) := prepare_for_update (f_read f) (f_erase f) (r_blk c) (m_upd s r) (m_flash s) n in
      u_base u = r_base c r /\ u_max u = r_size c /\ u_off u <= r_size c).
    { unfold prepare_for_update, upd_prepare. destruct (N.ltb (u_max (m_upd s r)) n); [auto|].
      destruct (if (n =? 0)%N then _ else _) as [m' x']. destruct x'; cbn; auto. rewrite U1, U2. repeat split; lia. }
    destruct (prepare_for_update (f_read f) (f_erase f) (r_blk c) (m_upd s r) (m_flash s) n) as [[u m] x].
    destruct P as (_ & P & _); [split; lia|lia|].
    assert (s' = Mgr m (m_valid s) (m_ref s) (set (m_upd s) r u) (Some r) (m_active s) (m_getting s) None) by congruence. subst s'. clear H.
    split; [|exact (updating_frame s h w r m I0 UP P)]. cbn [held1 progress1].
    destruct I0. constructor; cbn [m_ref m_getting m_valid m_active m_updating m_clearing m_upd fst snd]; auto.
    + intros q Q. injection Q as <-. now apply i_updating0.
    + intros q. unfold set. destruct (Bool.eqb_spec q r) as [->|]; auto.
  - (* Write *) unfold write in H. destruct (m_updating s) as [r|] eqn:UP.
    2: { injection H as <- <-. split; [exact I0|left; auto]. }
    destruct (i_upd _ _ _ I0 r) as (U1 & U2 & U3). cbn [op_ok] in OK. pose proof (rc_end c C r) as RE.
    pose proof (write_spec (f_write f) (m_upd s r) (m_flash s) d) as W. rewrite U1, U2 in W. specialize (W ltac:(lia) ltac:(lia) ltac:(lia)).
    pose proof (upd_write_off (f_write f) (m_upd s r) (m_flash s) d) as O. rewrite U2 in O. specialize (O ltac:(lia) ltac:(lia)).
    destruct (upd_write (f_write f) (m_upd s r) (m_flash s) d) as [[u m] x]. cbn [fst] in O. destruct W as (W1 & W2 & _ & W4 & _).
    assert (s' = Mgr m (m_valid s) (m_ref s) (set (m_upd s) r u) (Some r) (m_active s) (m_getting s) (m_clearing s)) by congruence. subst s'. clear H.
    split.
    + cbn [held1 progress1]. destruct I0. constructor; cbn [m_ref m_getting m_valid m_active m_updating m_clearing m_upd fst snd]; auto.
      * intros q Q. injection Q as <-. now apply i_updating0.
      * rewrite UP in i_clear0. exact i_clear0.
      * intros q. unfold set. destruct (Bool.eqb_spec q r) as [->|]; auto.
    + intros z. apply (updating_frame s h w r m I0 UP). intros y Y. apply W4. intros B. apply (Y y); [lia|reflexivity].
  - (* Activate *) destruct SER as (S1 & S2). unfold activate in H.
    assert (NG: m_getting s = []) by (apply length_zero_iff_nil; rewrite (i_count _ _ _ I0); exact S2).
    assert (NC: m_clearing s = None).
    { pose proof (i_clear _ _ _ I0) as Q. destruct (m_clearing s); [destruct Q; congruence|auto]. }
    destruct (match m_updating s with Some q => _ | None => false end); [injection H as <- <-; split; [exact I0|left; auto]|].
    set (r := get_region c (m_active s) false) in *.
    assert (IE: inv (Mgr (m_flash s) (m_valid s) (m_ref s) (m_upd s) None (m_active s) (m_getting s) (m_clearing s)) h w).
    { destruct I0. constructor; cbn [m_ref m_getting m_valid m_active m_updating m_clearing m_upd fst snd]; auto; try discriminate. now rewrite NC in *. }
    destruct (m_valid s r) eqn:VR; [injection H as <- <-; split; [exact IE|left; auto]|].
    destruct (m_updating s) as [q|] eqn:UP; [|injection H as <- <-; split; [exact IE|left; auto]].
    destruct (verify v (contents c (m_flash s) r)); [|injection H as <- <-; split; [exact IE|left; auto]..].
    destruct (Bool.eqb_spec r (get_region c (m_active s) true)) as [E|E]; injection H as <- <-; (split; [|left; auto]).
    + destruct IE. constructor; cbn [m_ref m_getting m_valid m_active m_updating m_clearing m_upd fst snd held1 progress1] in *; auto.
      * rewrite NG. constructor.
      * intros x X. unfold set in X. destruct (Bool.eqb_spec x r) as [Y|Y]; [rewrite Y; exact E|auto].
      * discriminate.
    + assert (T: r_two c = true) by (destruct (r_two c) eqn:T; [auto|]; elim E; unfold r; now rewrite !one_region).
      destruct IE. constructor; cbn [m_ref m_getting m_valid m_active m_updating m_clearing m_upd fst snd held1 progress1] in *; auto.
      * rewrite NG. constructor.
      * intros x X. unfold r, get_region in *. rewrite T in *. unfold set in X. destruct x, (m_active s); cbn in X |- *; congruence.
      * discriminate.
  - (* EraseAll *) unfold erase_all in H. set (r1 := get_region c (m_active s) false) in *. set (r2 := get_region c (m_active s) true) in *.
    assert (NC: m_clearing s = None).
    { pose proof (i_clear _ _ _ I0) as Q. destruct (m_clearing s); [destruct Q; congruence|auto]. }
    destruct (erase_one c s r1 f1) as [s1 a1] eqn:E1.
    destruct (erase_one_spec s h w r1 f1 s1 a1 I0 NC (or_introl eq_refl) E1) as (I1 & F1 & A1 & R1 & C1 & U1 & V1).
    assert (HP: held1 h (EraseAll V f1 f2, a) = h) by (destruct a; reflexivity).
    assert (PP: progress1 w (EraseAll V f1 f2, a) = w) by (destruct a; reflexivity). rewrite HP, PP.
    destruct a1; try (injection H as <- <-; split; [exact I1|exact F1]).
    set (s2 := Mgr (m_flash s1) (m_valid s1) (m_ref s1) (m_upd s1) None (m_active s1) (m_getting s1) (m_clearing s1)) in *.
    assert (I2: inv s2 h w).
    { destruct I1. constructor; cbn [s2 m_ref m_getting m_valid m_active m_updating m_clearing m_upd fst snd]; auto; try discriminate. now rewrite C1 in *. }
    destruct (Bool.eqb r1 r2); [injection H as <- <-; split; [exact I2|exact F1]|].
    assert (R2: r2 = get_region c (m_active s2) true) by (unfold r2; cbn [s2 m_active]; now rewrite A1).
    destruct (erase_one_spec s2 h w r2 f2 s' a I2 C1 (or_intror R2) H) as (I3 & F3 & A3 & R3 & C3 & U3 & V3).
    split; [exact I3|]. intros q. destruct (F1 q) as [X|(X & Y)].
    + destruct (F3 q) as [Z|(Z & W)]; [left; rewrite Z; exact X|]. right. cbn [s2 m_ref] in Z. rewrite R1 in Z. auto.
    + right. split; [auto|]. destruct (m_valid s' q) eqn:Z; [|auto]. apply V3 in Z. cbn [s2 m_valid] in Z. congruence.
Qed.

(** A legal history of calls. *)
Fixpoint legal (h : bool -> nat) (w : nat * bool) (l : list (op V * answer)) : Prop :=
  match l with [] => True | p :: q => op_legal h w (fst p) /\ legal (held1 h p) (progress1 w p) q end.

Lemma legal_intro : forall l h w, Forall (fun p => op_ok c (fst p)) l -> honest h l -> serial w l -> legal h w l.
Proof.
  clear verify C. induction l as [|p l IH]; intros h w O H S; [exact I|]. inversion O; subst. destruct H, S. cbn [legal]. split; [split; auto|]. auto.
Qed.

Definition held_from (h : bool -> nat) (l : list (op V * answer)) := fold_left held1 l h.
Definition progress_from (w : nat * bool) (l : list (op V * answer)) := fold_left progress1 l w.

Lemma run_inv : forall l s h w s' al, inv s h w -> run V verify c s l = (s', al) -> legal h w (combine l al) ->
  inv s' (held_from h (combine l al)) (progress_from w (combine l al)).
Proof.
  induction l as [|o l IH]; intros s h w s' al I0 H L; cbn [run] in H.
  - injection H as <- <-. exact I0.
  - destruct (step V verify c s o) as [s1 a] eqn:S. destruct (run V verify c s1 l) as [s2 b] eqn:R. injection H as <- <-.
    cbn [combine legal fst] in L. destruct L as (L1 & L2). destruct (step_inv s h w o s1 a I0 L1 S) as (I1 & _).
    exact (IH _ _ _ _ _ I1 R L2).
Qed.

Lemma run_app : forall l1 l2 s, run V verify c s (l1 ++ l2) =
  let '(s1, a1) := run V verify c s l1 in let '(s2, a2) := run V verify c s1 l2 in (s2, a1 ++ a2).
Proof.
  clear C. induction l1 as [|o l1 IH]; intros l2 s; cbn [run app].
  - now destruct (run V verify c s l2).
  - destruct (step V verify c s o) as [s1 a]. rewrite IH. destruct (run V verify c s1 l1) as [s2 b]. destruct (run V verify c s2 l2). reflexivity.
Qed.

Lemma run_length : forall l s, length (snd (run V verify c s l)) = length l.
Proof.
  clear C. induction l as [|o l IH]; intros s; cbn [run]; [reflexivity|]. destruct (step V verify c s o) as [s1 a]. specialize (IH s1).
  destruct (run V verify c s1 l). cbn [snd length] in *. now rewrite IH.
Qed.

Lemma legal_app : forall l1 l2 h w, legal h w (l1 ++ l2) <-> legal h w l1 /\ legal (held_from h l1) (progress_from w l1) l2.
Proof. clear C. induction l1 as [|p l1 IH]; intros l2 h w; cbn [legal app held_from progress_from fold_left]; [tauto|]. rewrite IH. tauto. Qed.

Lemma combine_app : forall A B (a1 a2 : list A) (b1 b2 : list B), length a1 = length b1 ->
  combine (a1 ++ a2) (b1 ++ b2) = combine a1 b1 ++ combine a2 b2.
Proof. clear. induction a1 as [|x a1 IH]; intros a2 [|y b1] b2 H; try discriminate; [reflexivity|]. cbn. f_equal. apply IH. now injection H. Qed.

(** How a region comes to be valid. *)
Lemma step_valid : forall s h w o s' a r, inv s h w -> op_legal h w o -> step V verify c s o = (s', a) -> m_valid s' r = true ->
  contents c (m_flash s') r = contents c (m_flash s) r /\
  (m_valid s r = true \/ exists v, o = Activate V v /\ a = Done /\ verify v (contents c (m_flash s') r) = Good).
Proof.
  intros s h w o s' a r I0 L H VR. destruct (step_inv s h w o s' a I0 L H) as (_ & F).
  destruct (F r) as [E|(_ & E)]; [|congruence]. split; [exact E|]. rewrite E. clear F E.
  destruct o as [|k|q|n|f|d f|v|f1 f2]; cbn [step] in H.
  - injection H as <- <-. auto.
  - unfold get_end in H. destruct (nth_error (m_getting s) k) as [[q b]|]; injection H as <- _; auto.
  - injection H as <- <-. auto.
  - unfold clear_start in H. destruct (Nat.eqb _ _); [destruct (upd_check_size _ _)|]; injection H as <- _; auto.
    left. cbn in VR. unfold set in VR. destruct (Bool.eqb r _); [discriminate|auto].
  - unfold clear_end in H. destruct (m_clearing s); [destruct (m_updating s)|]; [destruct (prepare_for_update _ _ _ _ _ _) as [[u m] x]| |]; injection H as <- _; auto.
  - unfold write in H. destruct (m_updating s); [destruct (upd_write _ _ _ _) as [[u m] x]|]; injection H as <- _; auto.
  - unfold activate in H. destruct (match m_updating s with Some q => _ | None => false end); [injection H as <- _; auto|].
    destruct (m_valid s (get_region c (m_active s) false)) eqn:VI; [injection H as <- _; auto|].
    destruct (m_updating s); [|injection H as <- _; auto].
    destruct (verify v (contents c (m_flash s) (get_region c (m_active s) false))) eqn:VE; [|injection H as <- _; auto..].
    destruct (Bool.eqb_spec (get_region c (m_active s) false) (get_region c (m_active s) true)) as [E|E]; injection H as <- <-; cbn [m_valid] in VR.
    + unfold set in VR. destruct (Bool.eqb_spec r (get_region c (m_active s) false)) as [->|]; [|auto]. right. eauto.
    + unfold set in VR. destruct (Bool.eqb r (m_active s)); [discriminate|].
      destruct (Bool.eqb_spec r (get_region c (m_active s) false)) as [->|]; [|auto]. right. eauto.
  - left. unfold erase_all in H. destruct (erase_one c s _ f1) as [s1 a1] eqn:E1.
    assert (V1: forall s q f s' a, erase_one c s q f = (s', a) -> m_valid s' r = true -> m_valid s r = true).
    { clear. intros s q f s' a H V. unfold erase_one in H. destruct (Nat.eqb _ _); [|injection H as <- _; auto].
      destruct (erase_region _ _ _ _ _). injection H as <- _. cbn in V. unfold set in V. destruct (Bool.eqb r q); [discriminate|auto]. }
    destruct a1; try (injection H as <- _; exact (V1 _ _ _ _ _ E1 VR)).
    destruct (Bool.eqb _ _); [injection H as <- _; exact (V1 _ _ _ _ _ E1 VR)|].
    apply (V1 _ _ _ _ _ E1). exact (V1 _ _ _ _ _ H VR).
Qed.
End Proofs.
