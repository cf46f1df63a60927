(** Proofs about the manifest manager: every step keeps the invariant. *)
From Coq Require Import List NArith ZArith Lia Bool Arith ZifyBool ZifyNat ZifyN.
From Verif Require Import Base Flash_Base FlashUtil_Model FlashUtil_Proofs FlashUpdater_Model FlashUpdater_Proofs
  ManifestMgr_Model ManifestMgr_Spec ManifestMgr_Proofs.
Import ListNotations.
Local Open Scope N_scope.

Ltac prj := cbn [with_valid with_updating m_flash m_valid m_ref m_upd m_info m_updating m_active m_getting m_clearing fst snd] in *.

Section Proofs.
Variable V : Type.
Variable verify : V -> list N -> verdict.
Variable c : mcfg.
Hypothesis C : mcfg_ok c.

Notation inv := (inv V verify c).
Notation verified := (verified V verify c).
Notation frame := (frame c).

Definition op_legal (h : bool -> nat) (w : nat * bool) (o : op V) : Prop :=
  match o with Write _ d _ => N.of_nat (length d) + r_size c < 2 ^ 32 | _ => True end /\
  match o with Free _ r => (0 < h r)%nat | _ => True end /\
  match o with
  | ClearStart _ _ | Write _ _ _ | ClearAll _ _ _ => snd w = false
  | Verify _ _ _ => snd w = false /\ fst w = 0%nat
  | Activate _ => fst w = 0%nat
  | _ => True
  end.

(** Handles and calls in progress after one call. *)
Definition hd (h : bool -> nat) (o : op V) (a : answer) : bool -> nat := held1 h (Call V o, Answer a).
Definition pg (w : nat * bool) (o : op V) (a : answer) : nat * bool := progress1 w (Call V o, Answer a).

Lemma updating_frame : forall s h w q m, inv s h w -> m_updating s = Some q ->
  (forall x, (forall y, r_base c q <= y < r_base c q + r_size c -> y / r_blk c <> x / r_blk c) -> m x = m_flash s x) ->
  (forall r, r <> q -> contents c m r = contents c (m_flash s) r) /\
  forall r, contents c m r = contents c (m_flash s) r \/ (m_ref s r = 0%nat /\ m_valid s r = false).
Proof.
  intros s h w q m I0 U E. destruct (i_upding _ _ _ _ _ _ I0 q U) as (A1 & A2 & A3).
  assert (X: forall r, r <> q -> contents c m r = contents c (m_flash s) r) by (intros r N; now apply (contents_apart c C (m_flash s) m q r)).
  split; [exact X|]. intros r. destruct (Bool.eqb_spec r q) as [->|N]; auto.
Qed.

Lemma step_inv : forall s h w o s' a, inv s h w -> op_legal h w o -> step V verify c s o = (s', a) ->
  inv s' (hd h o a) (pg w o a) /\ frame s s'.
Proof.
  intros s h w o s' a I0 (OK & HON & SER) H. destruct o as [act|k|r| |n|f|d f|v post|f1 f2]; cbn [step] in H.
  - (* GetStart *) injection H as <- <-. cbn [hd pg held1 progress1]. split; [|left; auto]. unfold get_start.
    set (r := get_region s act). destruct I0. constructor; prj; auto.
    + intros q. rewrite pending_app. unfold pending at 2. cbn [filter fst snd]. destruct (m_valid s r) eqn:VR.
      * destruct (Bool.eqb_spec r q) as [<-|N]; cbn [andb].
        -- rewrite set_same, i_ref. cbn. lia.
        -- rewrite set_other by auto. rewrite i_ref. cbn. lia.
      * rewrite andb_false_r. cbn. rewrite i_ref. lia.
    + apply Forall_app. split; [auto|]. constructor; [reflexivity|constructor].
    + intros q Q. destruct (i_upding q Q) as (A1 & A2 & A3). split; [auto|]. split; [auto|].
      destruct (m_valid s r) eqn:VR; [|auto]. rewrite set_other; [auto|]. intros ->. congruence.
    + rewrite app_length, i_count. cbn. lia.
  - (* GetEnd *) unfold get_end in H. destruct (nth_error (m_getting s) k) as [[r b]|] eqn:NE.
    2: { injection H as <- <-. split; [exact I0|left; auto]. }
    assert (s' = Mgr (m_flash s) (m_valid s) (m_ref s) (m_upd s) (m_info s) (m_updating s) (m_active s) (firstn k (m_getting s) ++ skipn (S k) (m_getting s)) (m_clearing s)) by congruence.
    assert (a = if m_valid s r then Manifest r else NoManifest) by congruence. subst s' a. clear H. split; [|left; auto].
    pose proof (proj1 (Forall_forall _ _) (i_get _ _ _ _ _ _ I0) _ (nth_error_In _ _ NE)) as VB. cbn [fst snd] in VB. rewrite VB.
    destruct I0.
    assert (G: Forall (fun p => m_valid s (fst p) = snd p) (firstn k (m_getting s) ++ skipn (S k) (m_getting s))).
    { rewrite Forall_forall in i_get |- *. intros x X. apply i_get. apply in_app_or in X.
      destruct X as [X|X]; [exact (in_firstn _ _ _ _ X)|exact (in_skipn _ _ _ _ X)]. }
    destruct b; cbn [hd pg held1 progress1]; constructor; prj; auto.
    + intros q. rewrite i_ref, (pending_out _ _ q _ _ NE), andb_true_r. destruct (Bool.eqb_spec r q) as [<-|N]; [rewrite set_same|rewrite set_other by auto]; lia.
    + rewrite (get_app _ _ _ _ NE). lia.
    + intros q. rewrite i_ref, (pending_out _ _ q _ _ NE), andb_false_r. lia.
    + rewrite (get_app _ _ _ _ NE). lia.
  - (* Free *) injection H as <- <-. cbn [hd pg held1 progress1]. split; [|left; auto]. unfold free. destruct I0.
    assert (U: forall q, m_ref s q = 0%nat -> set (m_ref s) r (pred (m_ref s r)) q = 0%nat).
    { intros q Q. unfold set. destruct (Bool.eqb_spec q r) as [->|]; [rewrite Q; reflexivity|auto]. }
    constructor; prj; auto.
    + intros q. unfold set. destruct (Bool.eqb_spec q r) as [->|N]; rewrite i_ref; lia.
    + intros q Q. destruct (i_upding q Q) as (A1 & A2 & A3). auto.
  - (* Activate *) unfold activate in H. set (p := negb (m_active s)) in *.
    assert (HP: hd h (Activate V) a = h) by reflexivity. assert (PP: pg w (Activate V) a = w) by reflexivity. rewrite HP, PP.
    destruct (m_valid s p) eqn:VP; [|injection H as <- <-; split; [exact I0|left; auto]]. injection H as <- _. split; [|left; auto].
    assert (NG: m_getting s = []) by (apply length_zero_iff_nil; rewrite (i_count _ _ _ _ _ _ I0); exact SER).
    assert (NU: m_updating s = None).
    { destruct (m_updating s) as [q|] eqn:U; [|auto]. destruct (i_upding _ _ _ _ _ _ I0 q U) as (-> & A2 & _). unfold p in VP. congruence. }
    destruct I0. constructor; prj; auto.
    + rewrite NG. constructor.
    + rewrite NU. discriminate.
    + intros q Q. apply set_false in Q. destruct Q as (_ & Q). exact (i_info q Q).
    + unfold p. rewrite negb_involutive, set_same. discriminate.
  - (* ClearStart *) unfold clear_start in H. set (r := get_region s false) in *.
    destruct (Nat.eqb_spec (m_ref s r) 0) as [R|R]; [|injection H as <- <-; split; [exact I0|left; auto]].
    unfold upd_check_size in H. destruct (i_upd _ _ _ _ _ _ I0 r) as (U1 & U2 & U3). rewrite U2 in H.
    destruct (N.ltb_spec (r_size c) n) as [L|L]; injection H as <- <-; (split; [|left; auto]); [exact I0|].
    cbn [hd pg held1 progress1]. pose proof (drop_get _ _ _ s h w r I0 R) as G. destruct I0.
    constructor; prj; auto.
    + intros q Q. injection Q as <-. split; [auto|]. rewrite set_same. auto.
    + split; [auto|]. split; [discriminate|auto].
    + intros q Q. apply set_false in Q. destruct Q as (_ & Q). exact (i_info q Q).
    + intros x y X. intros Y. exfalso. unfold r, get_region in Y. rewrite set_same in Y. discriminate.
  - (* ClearEnd *) unfold clear_end in H. destruct (m_clearing s) as [n|] eqn:CL.
    2: { injection H as <- <-. split; [|left; auto]. cbn [hd pg held1 progress1]. pose proof (i_clear _ _ _ _ _ _ I0) as Q. rewrite CL in Q. destruct w as [w1 w2]. cbn in *. subst w2. exact I0. }
    pose proof (i_clear _ _ _ _ _ _ I0) as Q. rewrite CL in Q. destruct Q as (Q1 & Q2 & Q3).
    destruct (m_updating s) as [r|] eqn:UP; [|congruence]. destruct (i_upd _ _ _ _ _ _ I0 r) as (U1 & U2 & U3).
    pose proof (prepare_spec (f_read f) (f_erase f) (r_blk c) (mc_blk c C) (m_upd s r) (m_flash s) n (u_max (m_upd s r)) (r_base c r) (r_size c)) as P.
    fold (prepare_erase_all (f_read f) (f_erase f) (r_blk c) (m_upd s r) (m_flash s) n) in P.
    assert (UB: let '(u, m, x) := prepare_erase_all (f_read f) (f_erase f) (r_blk c) (m_upd s r) (m_flash s) n in
      u_base u = r_base c r /\ u_max u = r_size c /\ u_off u <= r_size c).
    { unfold prepare_erase_all, upd_prepare. destruct (N.ltb (u_max (m_upd s r)) n); [auto|].
      destruct (if (u_max (m_upd s r) =? 0)%N then _ else _) as [m' x']. destruct x'; cbn; auto. rewrite U1, U2. repeat split; lia. }
    destruct (prepare_erase_all (f_read f) (f_erase f) (r_blk c) (m_upd s r) (m_flash s) n) as [[u m] x].
    destruct P as (_ & P & _); [split; lia|lia|].
    assert (s' = Mgr m (m_valid s) (m_ref s) (set (m_upd s) r u) (m_info s) (Some r) (m_active s) (m_getting s) None) by congruence. subst s'. clear H.
    destruct (updating_frame s h w r m I0 UP P) as (X & Y). split; [|exact Y]. cbn [hd pg held1 progress1].
    destruct I0. constructor; prj; auto.
    + intros q Q. injection Q as <-. now apply i_upding.
    + intros q. unfold set. destruct (Bool.eqb_spec q r) as [->|]; auto.
    + intros q Q. destruct (i_info q Q) as (i & J1 & v & J2). exists i. split; [exact J1|]. exists v. prj.
      rewrite X; [exact J2|]. intros ->. destruct (i_upding r UP) as (_ & Z & _). congruence.
  - (* Write *) unfold write in H. destruct (m_updating s) as [r|] eqn:UP.
    2: { injection H as <- <-. split; [exact I0|left; auto]. }
    destruct (i_upd _ _ _ _ _ _ I0 r) as (U1 & U2 & U3). pose proof (mc_end c C r) as RE.
    pose proof (write_spec (f_write f) (m_upd s r) (m_flash s) d) as W. rewrite U1, U2 in W. specialize (W ltac:(lia) ltac:(lia) ltac:(lia)).
    pose proof (upd_write_off (f_write f) (m_upd s r) (m_flash s) d) as O. rewrite U2 in O. specialize (O ltac:(lia) ltac:(lia)).
    destruct (upd_write (f_write f) (m_upd s r) (m_flash s) d) as [[u m] x]. cbn [fst] in O. destruct W as (W1 & W2 & _ & W4 & _).
    assert (s' = Mgr m (m_valid s) (m_ref s) (set (m_upd s) r u) (m_info s) (Some r) (m_active s) (m_getting s) (m_clearing s)) by congruence. subst s'. clear H.
    assert (P: forall x0, (forall y, r_base c r <= y < r_base c r + r_size c -> y / r_blk c <> x0 / r_blk c) -> m x0 = m_flash s x0).
    { intros z Z. apply W4. intros B. apply (Z z); [lia|reflexivity]. }
    destruct (updating_frame s h w r m I0 UP P) as (X & Y). split; [|exact Y].
    cbn [hd pg held1 progress1]. destruct I0. constructor; prj; auto.
    + intros q Q. injection Q as <-. now apply i_upding.
    + rewrite UP in i_clear. exact i_clear.
    + intros q. unfold set. destruct (Bool.eqb_spec q r) as [->|]; auto.
    + intros q Q. destruct (i_info q Q) as (i & J1 & v & J2). exists i. split; [exact J1|]. exists v. prj.
      rewrite X; [exact J2|]. intros ->. destruct (i_upding r UP) as (_ & Z & _). congruence.
  - (* Verify *) destruct SER as (S1 & S2). unfold verify_pending in H.
    assert (HP: hd h (Verify V v post) a = h) by reflexivity. assert (PP: pg w (Verify V v post) a = w) by reflexivity. rewrite HP, PP.
    assert (NG: m_getting s = []) by (apply length_zero_iff_nil; rewrite (i_count _ _ _ _ _ _ I0); exact S2).
    assert (NC: m_clearing s = None).
    { pose proof (i_clear _ _ _ _ _ _ I0) as Q. destruct (m_clearing s); [destruct Q; congruence|auto]. }
    pose proof (inv_updating_none _ _ _ s h w I0 NC) as IE.
    destruct (match m_updating s with Some q => _ | None => false end); [injection H as <- <-; split; [exact IE|left; auto]|].
    unfold get_region in H. set (p := negb (m_active s)) in *.
    destruct (m_valid s p) eqn:VP; [injection H as <- <-; split; [exact IE|left; auto]|].
    destruct (m_updating s) as [q|] eqn:UP; [|injection H as <- <-; split; [exact IE|left; auto]].
    assert (BAD: inv (with_updating (Mgr (m_flash s) (set (m_valid s) p false) (m_ref s) (m_upd s) (set (m_info s) p None) (Some q) (m_active s) (m_getting s) (m_clearing s)) None) h w).
    { destruct IE. constructor; prj; auto.
      - rewrite NG. constructor.
      - discriminate.
      - intros x X. apply set_false in X. destruct X as (X1 & X2). destruct (i_info x X2) as (i & J1 & J2). exists i. split; [prj; now rewrite set_other|exact J2].
      - intros x y X Y. fold p in Y. rewrite set_same in Y. discriminate. }
    destruct (verify v (contents c (m_flash s) p)) as [i| |] eqn:VE; [|injection H as <- <-; split; [exact BAD|left; auto]..].
    set (s1 := Mgr (m_flash s) (set (m_valid s) p true) (m_ref s) (m_upd s) (set (m_info s) p (Some i)) (Some q) (m_active s) (m_getting s) (m_clearing s)) in *.
    assert (HI: forall r, m_valid s1 r = true -> exists j, verified s1 r j).
    { intros r R. unfold s1 in *. prj. destruct (Bool.eqb_spec r p) as [->|N].
      - exists i. split; prj; [apply set_same|eauto].
      - rewrite set_other in R by auto. destruct (i_info _ _ _ _ _ _ I0 r R) as (j & J1 & J2). exists j. split; [prj; now rewrite set_other|exact J2]. }
    pose proof (compare_pending V verify c s1 HI) as CP. cbn zeta in CP.
    destruct (check_pending_id s1) as [s2 a2] eqn:E2. cbn [fst snd] in CP.
    assert (W: forall x, (forall q0, q0 <> p -> m_valid x q0 = m_valid s1 q0) -> x = with_valid s1 (m_valid x) ->
       (forall a1 p1, m_valid x (m_active s) = true -> m_valid x p = true -> m_info s1 (m_active s) = Some a1 -> m_info s1 p = Some p1 -> newer c a1 p1) ->
       inv (with_updating x None) h w /\ frame s (with_updating x None)).
    { intros x X1 X2 X3. rewrite X2. split; [|left; auto]. destruct IE. constructor; prj; auto.
      - unfold s1. prj. rewrite NG. constructor.
      - discriminate.
      - intros r R. destruct (Bool.eqb_spec r p) as [->|N]; [|rewrite X1 in R by auto; exact (HI r R)].
        exists i. split; [unfold s1; prj; apply set_same|]. exists v. exact VE. }
    destruct CP as (b & B1 & B2 & B3 & B4 & B5 & B6 & B7 & B8 & B9 & B10 & B11).
    assert (AP: m_active s1 = m_active s) by reflexivity. rewrite AP in *. fold p in B3, B4, B7.
    assert (FIN: snd (check_pending_platform c s2) <> BadManifest -> (snd (check_pending_platform c s2) = Done -> a2 <> Done -> False) \/ a2 = Done \/ True) by auto. clear FIN.
    assert (S1A: m_valid s1 p = true) by (unfold s1; prj; apply set_same).
    destruct B8 as [->| ->].
    + specialize (B11 eq_refl). subst s2. destruct (check_pending_platform c s1) as [s3 a3] eqn:E3. prj.
      assert (R3: inv (with_updating s3 None) h w /\ frame s (with_updating s3 None)).
      { apply W; auto. intros a1 p1 X1 X2 X3 X4. destruct b.
        - apply (proj1 B7 eq_refl); auto; [rewrite <- B3; [exact X1|]; intros Q; exact (negb_neq _ (eq_sym Q))].
        - rewrite S1A in B4. cbn in B4. congruence. }
      destruct a3; injection H as <- _; exact R3.
    + assert (R3: inv (with_updating s2 None) h w /\ frame s (with_updating s2 None)).
      { apply W; auto.
        - intros q0 N. unfold check_pending_id in E2. destruct (_ && _); [destruct (compare_id _ _)|]; try discriminate. injection E2 as <-. prj.
          rewrite set_other; [auto|]. exact N.
        - intros a1 p1 _ X. exfalso. unfold check_pending_id in E2. destruct (_ && _); [destruct (compare_id _ _)|]; try discriminate. injection E2 as <-. prj.
          unfold get_region in X. change (m_active s1) with (m_active s) in X. fold p in X. rewrite set_same in X. discriminate. }
      injection H as <- _; exact R3.
  - (* ClearAll *)
    assert (NC: m_clearing s = None).
    { pose proof (i_clear _ _ _ _ _ _ I0) as Q. destruct (m_clearing s); [destruct Q; congruence|auto]. }
    destruct (clear_all_spec V verify c C s h w f1 f2 s' a I0 NC H) as (I1 & F1 & _). split; [exact I1|exact F1].
Qed.

(** A start. *)
Lemma init_spec : forall m act b m' r, init V verify c m act b = (m', r) ->
  (forall s x, r = Some (s, x) -> m' = m_flash s /\ inv s (fun _ => 0%nat) (0%nat, false) /\ m_active s = act /\ x <> Failed /\
     (x = Booted -> m_flash s = m /\
        forall q i, q = act -> verify (if q then b_v2 V b else b_v1 V b) (contents c m q) = Good i -> m_valid s q = true /\ m_info s q = Some i) /\
     (forall q, m_valid s q = true -> contents c (m_flash s) q = contents c m q /\
        exists i, verify (if q then b_v2 V b else b_v1 V b) (contents c m q) = Good i /\ m_info s q = Some i) /\
     (x = Cleared -> forall q, m_valid s q = false)).
Proof.
  intros m act b m' r H s x ->. unfold init in H. unfold verify_region in H. prj.
  set (res1 := verify (b_v1 V b) (contents c m false)) in *.
  set (res2 := verify (b_v2 V b) (contents c m true)) in *.
  set (ok := fun y => match y with Good _ => true | _ => false end).
  set (inf := fun y => match y with Good i => Some i | _ => None end).
  set (s1 := Mgr m (set (set (fun _ => false) false (ok res1)) true (ok res2)) (fun _ => 0%nat) (fun q => upd_init (r_base c q) (r_size c))
    (set (set (fun _ => None) false (inf res1)) true (inf res2)) None act [] None).
  set (vf := fun q : bool => if q then b_v2 V b else b_v1 V b).
  assert (K: forall q, ok (verify (vf q) (contents c m q)) = m_valid s1 q /\ inf (verify (vf q) (contents c m q)) = m_info s1 q) by (intros []; split; reflexivity).
  assert (H1: (let s := fst (check_pending_id s1) in
    match check_pending_platform c s with
    | (_, BadManifest) => (m, None)
    | (s, _) =>
        match check_empty c s (b_empty V b) (b_f1 V b) (b_f2 V b) with
        | (s, Failed) => (m_flash s, None)
        | (s, x) => (m_flash s, Some (s, x))
        end
    end) = (m', Some (s, x))).
  { unfold s1. destruct res1; [| |discriminate H]; prj; fold res2 in H; destruct res2; try discriminate H; exact H. }
  clear H. rename H1 into H. cbn zeta in H.
  assert (HI: forall r, m_valid s1 r = true -> exists j, verified s1 r j).
  { intros r R. destruct (K r) as (K1 & K2). rewrite R in K1. destruct (verify (vf r) (contents c m r)) as [i| |] eqn:E; try discriminate. exists i. split; [auto|].
    exists (vf r). exact E. }
  pose proof (compare_pending V verify c s1 HI) as CP. cbn zeta in CP. destruct CP as (bb & B1 & B2 & B3 & B4 & B5 & B6 & B7 & B8 & B9 & B10 & B11).
  destruct (check_pending_platform c (fst (check_pending_id s1))) as [s3 a3] eqn:E3. cbn [fst snd] in *.
  assert (H1: match check_empty c s3 (b_empty V b) (b_f1 V b) (b_f2 V b) with
        | (s, Failed) => (m_flash s, None)
        | (s, x) => (m_flash s, Some (s, x))
        end = (m', Some (s, x))) by (destruct a3; try exact H; now elim B5).
  clear H. rename H1 into H.
  assert (AC: m_active s1 = act) by reflexivity. rewrite AC in *.
  assert (I3: inv s3 (fun _ => 0%nat) (0%nat, false)).
  { rewrite B2. constructor; prj; auto.
    - constructor.
    - intros q0. discriminate.
    - reflexivity.
    - intros q0. cbn. repeat split; auto. lia.
    - intros q0 Q. assert (Q1: m_valid s1 q0 = true).
      { destruct (Bool.eqb_spec q0 (negb act)) as [->|N]; [|now rewrite <- B3]. rewrite Q in B4. destruct bb; [auto|discriminate]. }
      exact (HI q0 Q1).
    - intros a0 p0 X1 X2 X3 X4. change (m_active s1) with act in *. rewrite X2 in B4. destruct bb; [|discriminate]. apply (proj1 B7 eq_refl); auto.
      rewrite <- B3; [exact X1|]. intros Q. exact (negb_neq _ (eq_sym Q)). }
  assert (M3: m_flash s3 = m) by (rewrite B2; reflexivity). assert (A3: m_active s3 = act) by (rewrite B2; reflexivity).
  assert (V3: forall q, m_valid s3 q = true -> exists i, verify (vf q) (contents c m q) = Good i /\ m_info s3 q = Some i).
  { intros q0 Q. assert (Q1: m_valid s1 q0 = true).
    { destruct (Bool.eqb_spec q0 (negb act)) as [->|N]; [|now rewrite <- B3]. rewrite Q in B4. destruct bb; [auto|discriminate]. }
    destruct (K q0) as (K1 & K2). rewrite Q1 in K1. destruct (verify (vf q0) (contents c m q0)) as [i| |]; try discriminate. exists i. split; [auto|].
    rewrite B2. prj. symmetry. exact K2. }
  assert (KA: forall i, verify (vf act) (contents c m act) = Good i -> m_valid s3 act = true /\ m_info s3 act = Some i).
  { intros i E. destruct (K act) as (K1 & K2). rewrite E in K1, K2. split.
    - rewrite B3 by (intros Q; exact (negb_neq _ (eq_sym Q))). now rewrite <- K1.
    - rewrite B2. prj. now rewrite <- K2. }
  unfold check_empty in H. unfold get_region in H. rewrite A3 in H. destruct (m_valid s3 (negb act)) eqn:VP.
  2: { injection H as <- <- <-. split; [auto|]. split; [auto|]. split; [auto|]. split; [discriminate|].
       split; [intros _; split; [auto|intros q i -> E; exact (KA i E)]|]. split; [intros q Q; split; [now rewrite M3|exact (V3 q Q)]|discriminate]. }
  destruct (b_empty V b); [discriminate|]. destruct (m_info s3 (negb act)) as [ip|] eqn:IP; [|discriminate]. destruct (i_empty ip).
  - destruct (clear_all c s3 (b_f1 V b) (b_f2 V b)) as [s4 a4] eqn:CA.
    assert (NC3: m_clearing s3 = None) by (rewrite B2; reflexivity).
    destruct (clear_all_spec V verify c C _ _ _ _ _ _ _ I3 NC3 CA) as (I4 & F4 & A4 & R4 & C4 & V4 & D4).
    destruct a4; try discriminate. injection H as <- <- <-. split; [auto|]. split; [exact I4|]. split; [congruence|]. split; [discriminate|].
    split; [discriminate|]. split; [intros q Q; rewrite (D4 eq_refl) in Q; discriminate|]. intros _. now apply D4.
  - injection H as <- <- <-. split; [auto|]. split; [auto|]. split; [auto|]. split; [discriminate|].
    split; [intros _; split; [auto|intros q i -> E; exact (KA i E)]|]. split; [intros q Q; split; [now rewrite M3|exact (V3 q Q)]|discriminate].
Qed.
End Proofs.
