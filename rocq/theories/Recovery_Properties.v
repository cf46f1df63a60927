(** Recovery image properties (C34). *)
From Coq Require Import List NArith ZArith Lia Bool Arith ZifyBool ZifyNat ZifyN.
From Verif Require Import Base Flash_Base FlashUtil_Model FlashUtil_Proofs FlashUpdater_Model FlashUpdater_Proofs
  Recovery_Model Recovery_Spec Recovery_Proofs.
Import ListNotations.
Local Open Scope N_scope.

(** Any history of calls, with any device faults and results of verification, after an initialisation of a manager of
    one or two regions with any flash and active region. *)
Definition history {V} (verify : V -> list N -> verdict) (c : rcfg) (m0 : image) (a0 : region) (v0 : V) (l : list (op V))
  (s : mgr) (al : list answer) : Prop :=
  rcfg_ok c /\ Forall (op_ok c) l /\ honest (fun _ => 0%nat) (combine l al) /\ serial (0%nat, false) (combine l al) /\
  exists s0, init V verify c m0 a0 v0 = Some s0 /\ run V verify c s0 l = (s, al).

(** The contents of the flash after the calls, and the image that the manager offers to clients. *)
Definition flash_after {V} (verify : V -> list N -> verdict) (c : rcfg) (m0 : image) (a0 : region) (v0 : V) (l : list (op V)) : image :=
  match init V verify c m0 a0 v0 with Some s0 => m_flash (fst (run V verify c s0 l)) | None => m0 end.
Definition offer (c : rcfg) (s : mgr) : option (region * list N) :=
  let r := get_region c (m_active s) true in if m_valid s r then Some (r, contents c (m_flash s) r) else None.

Lemma combine_ok : forall V c (l : list (op V)) (al : list answer), Forall (op_ok c) l -> Forall (fun p => op_ok c (fst p)) (combine l al).
Proof.
  intros V c l. induction l as [|o l IH]; intros [|a al] H; cbn; auto. inversion H; subst. constructor; auto.
Qed.

Lemma history_inv : forall V verify c m0 a0 v0 l s al, @history V verify c m0 a0 v0 l s al ->
  legal V c (fun _ => 0%nat) (0%nat, false) (combine l al) /\
  inv c s (held (combine l al)) (progress_from V (0%nat, false) (combine l al)).
Proof.
  intros V verify c m0 a0 v0 l s al (C & O & H & S & s0 & I0 & R).
  assert (L: legal V c (fun _ => 0%nat) (0%nat, false) (combine l al)) by (apply legal_intro; auto; now apply combine_ok).
  split; [exact L|]. apply (run_inv V verify c C l s0); auto. exact (inv_init V verify c m0 a0 v0 s0 I0).
Qed.

Lemma history_snoc : forall V verify c m0 a0 v0 l o s' al', @history V verify c m0 a0 v0 (l ++ [o]) s' al' ->
  exists s al a, al' = al ++ [a] /\ length al = length l /\ history verify c m0 a0 v0 l s al /\ step V verify c s o = (s', a) /\
    op_legal V c (held (combine l al)) (progress_from V (0%nat, false) (combine l al)) o.
Proof.
  intros V verify c m0 a0 v0 l o s' al' H. destruct (history_inv _ _ _ _ _ _ _ _ _ H) as (L & _).
  destruct H as (C & O & H & S & s0 & I0 & R). rewrite run_app in R.
  destruct (run V verify c s0 l) as [s al] eqn:R1. cbn [run] in R. destruct (step V verify c s o) as [s2 a] eqn:ST.
  assert (s2 = s') by congruence. assert (al' = al ++ [a]) by congruence. subst s2 al'.
  assert (LE: length l = length al) by (pose proof (run_length V verify c l s0) as Q; rewrite R1 in Q; auto).
  exists s, al, a. rewrite combine_app in * by auto. apply legal_app in L. destruct L as (L1 & L2).
  split; [auto|]. split; [auto|]. split; [|split; [auto|exact (proj1 L2)]].
  split; [auto|]. split; [now apply Forall_app in O|].
  assert (HS: forall p q h, @honest V h (p ++ q) -> honest h p).
  { clear. induction p as [|x p IH]; intros q h Q; [exact I|]. cbn in *. destruct Q. split; [auto|]. eapply IH; eauto. }
  assert (SS: forall p q w, @serial V w (p ++ q) -> serial w p).
  { clear. induction p as [|x p IH]; intros q h Q; [exact I|]. cbn in *. destruct Q. split; [auto|]. eapply IH; eauto. }
  split; [exact (HS _ _ _ H)|]. split; [exact (SS _ _ _ S)|]. eauto.
Qed.

(** The manager offers only an image that was verified: by an activation, or the initialisation, after which the region
    has not changed. *)
Lemma verified : forall V verify c m0 a0 v0 l s al r, @history V verify c m0 a0 v0 l s al -> m_valid s r = true ->
  exists l1 l2 v, l = l1 ++ l2 /\ (l1 = [] /\ v = v0 \/ exists p, l1 = p ++ [Activate V v]) /\
    verify v (contents c (flash_after verify c m0 a0 v0 l1) r) = Good /\
    forall p q, l2 = p ++ q ->
      contents c (flash_after verify c m0 a0 v0 (l1 ++ p)) r = contents c (flash_after verify c m0 a0 v0 l1) r.
Proof.
  intros V verify c m0 a0 v0 l. induction l as [|o l IH] using rev_ind; intros s al r H VR.
  - exists [], [], v0. split; [auto|]. split; [auto|]. destruct H as (C & _ & _ & _ & s0 & I0 & R). cbn in R. injection R as <- <-.
    unfold flash_after. rewrite I0. cbn [run fst]. split.
    + unfold init in I0. destruct (verify v0 (contents c m0 (get_region c a0 true))) eqn:VE; try discriminate; injection I0 as <-; cbn in VR; unfold set in VR;
        destruct (Bool.eqb_spec r (get_region c a0 true)) as [->|]; try discriminate. exact VE.
    + intros [|x p] q E; [reflexivity|discriminate].
  - destruct (history_snoc _ _ _ _ _ _ _ _ _ _ H) as (s1 & al1 & a & -> & LE & H1 & ST & L).
    destruct (history_inv _ _ _ _ _ _ _ _ _ H1) as (_ & I1).
    assert (C: rcfg_ok c) by apply H.
    destruct (step_valid V verify c C _ _ _ _ _ _ r I1 L ST VR) as (E & D).
    assert (FA: forall x y z, history verify c m0 a0 v0 x y z -> flash_after verify c m0 a0 v0 x = m_flash y).
    { intros x y z (_ & _ & _ & _ & s0 & I0 & R). unfold flash_after. now rewrite I0, R. }
    destruct D as [D|(v & -> & -> & D)].
    + destruct (IH _ _ r H1 D) as (l1 & l2 & v & -> & W & G & U). exists l1, (l2 ++ [o]), v. rewrite app_assoc. split; [auto|]. split; [auto|]. split; [auto|].
      intros p q Q. destruct q as [|x q] using rev_ind.
      * rewrite app_nil_r in Q. subst p. rewrite app_assoc, (FA _ _ _ H), E, <- (FA _ _ _ H1). exact (U l2 [] (eq_sym (app_nil_r _))).
      * rewrite app_assoc in Q. apply app_inj_tail in Q. destruct Q as (Q & _). exact (U p q Q).
    + exists (l ++ [Activate V v]), [], v. rewrite app_nil_r. split; [auto|]. split; [eauto|]. split; [now rewrite (FA _ _ _ H)|].
      intros [|x p] q Q; [now rewrite app_nil_r|discriminate].
Qed.

Theorem C34_offered : forall V verify c m0 a0 v0 l k s al r, @history V verify c m0 a0 v0 (l ++ [GetEnd V k]) s (al ++ [Image r]) ->
  exists l1 l2 v, l = l1 ++ l2 /\ (l1 = [] /\ v = v0 \/ exists p, l1 = p ++ [Activate V v]) /\
    verify v (contents c (flash_after verify c m0 a0 v0 l1) r) = Good /\
    forall p q, l2 = p ++ q ->
      contents c (flash_after verify c m0 a0 v0 (l1 ++ p)) r = contents c (flash_after verify c m0 a0 v0 l1) r.
Proof.
  intros V verify c m0 a0 v0 l k s al r H. destruct (history_snoc _ _ _ _ _ _ _ _ _ _ H) as (s1 & al1 & a & E & LE & H1 & ST & L).
  apply app_inj_tail in E. destruct E as (_ & <-). apply (verified V verify c m0 a0 v0 l s1 al1 r H1).
  cbn [step] in ST. unfold get_end in ST. destruct (nth_error (m_getting s1) k) as [[q b]|]; [|discriminate].
  destruct (m_valid s1 q) eqn:VQ; [|discriminate]. assert (q = r) by congruence. now subst.
Qed.
Print Assumptions C34_offered.

(** No call changes a region whose image somebody has. *)
Theorem C34_in_use : forall V verify c m0 a0 v0 l o s' al' r, @history V verify c m0 a0 v0 (l ++ [o]) s' al' ->
  (0 < held (combine l al') r)%nat ->
  contents c (flash_after verify c m0 a0 v0 (l ++ [o])) r = contents c (flash_after verify c m0 a0 v0 l) r.
Proof.
  intros V verify c m0 a0 v0 l o s' al' r H P. destruct (history_snoc _ _ _ _ _ _ _ _ _ _ H) as (s1 & al1 & a & -> & LE & H1 & ST & L).
  assert (E: combine l (al1 ++ [a]) = combine l al1).
  { rewrite <- (app_nil_r l) at 1. rewrite combine_app by auto. apply app_nil_r. }
  rewrite E in P. destruct (history_inv _ _ _ _ _ _ _ _ _ H1) as (_ & I1). assert (C: rcfg_ok c) by apply H.
  destruct (step_inv V verify c C _ _ _ _ _ _ I1 L ST) as (_ & F).
  assert (FA: forall x y z, history verify c m0 a0 v0 x y z -> flash_after verify c m0 a0 v0 x = m_flash y).
  { intros x y z (_ & _ & _ & _ & s0 & I0 & R). unfold flash_after. now rewrite I0, R. }
  rewrite (FA _ _ _ H), (FA _ _ _ H1). destruct (F r) as [Q|(Q & _)]; [exact Q|]. rewrite (i_ref _ _ _ _ I1 r) in Q. lia.
Qed.
Print Assumptions C34_in_use.

(** Clearing a region is refused exactly if somebody has its image, when no call to get it is in progress. *)
Theorem C34_clear_refused : forall V verify c m0 a0 v0 l n s s' al a, @history V verify c m0 a0 v0 l s al ->
  history verify c m0 a0 v0 (l ++ [ClearStart V n]) s' (al ++ [a]) -> m_getting s = [] ->
  (a = InUse <-> (0 < held (combine l al) (get_region c (m_active s) false))%nat).
Proof.
  intros V verify c m0 a0 v0 l n s s' al a H1 H G. destruct (history_snoc _ _ _ _ _ _ _ _ _ _ H) as (s1 & al1 & b & E & LE & H2 & ST & L).
  apply app_inj_tail in E. destruct E as (<- & <-).
  assert (s1 = s). { destruct H1 as (_ & _ & _ & _ & x & X1 & X2). destruct H2 as (_ & _ & _ & _ & y & Y1 & Y2). congruence. } subst s1.
  destruct (history_inv _ _ _ _ _ _ _ _ _ H1) as (_ & I1). pose proof (i_ref _ _ _ _ I1 (get_region c (m_active s) false)) as Q.
  rewrite G in Q. cbn in Q. rewrite Nat.add_0_r in Q. rewrite <- Q. cbn [step] in ST. unfold clear_start in ST.
  destruct (Nat.eqb_spec (m_ref s (get_region c (m_active s) false)) 0) as [R|R].
  - split; [|lia]. intros ->. unfold upd_check_size in ST. destruct (N.ltb _ _); discriminate.
  - split; [lia|]. intros _. congruence.
Qed.
Print Assumptions C34_clear_refused.

(** With two regions, the image on offer and its contents stay as they are until an activation succeeds or everything is
    erased: an update that fails or is abandoned at any point does no harm. *)
Theorem C34_failed_update : forall V verify c m0 a0 v0 l o s s' al a, r_two c = true -> @history V verify c m0 a0 v0 l s al ->
  history verify c m0 a0 v0 (l ++ [o]) s' (al ++ [a]) ->
  match o with Activate _ _ => a <> Done | EraseAll _ _ _ => False | _ => True end ->
  offer c s' = offer c s.
Proof.
  intros V verify c m0 a0 v0 l o s s' al a T H1 H N. destruct (history_snoc _ _ _ _ _ _ _ _ _ _ H) as (s1 & al1 & b & E & LE & H2 & ST & L).
  apply app_inj_tail in E. destruct E as (<- & <-).
  assert (s1 = s). { destruct H1 as (_ & _ & _ & _ & x & X1 & X2). destruct H2 as (_ & _ & _ & _ & y & Y1 & Y2). congruence. } subst s1.
  destruct (history_inv _ _ _ _ _ _ _ _ _ H1) as (_ & I1). assert (C: rcfg_ok c) by apply H.
  destruct (step_inv V verify c C _ _ _ _ _ _ I1 L ST) as (_ & F).
  assert (SA: m_active s' = m_active s /\ m_valid s' (get_region c (m_active s) true) = m_valid s (get_region c (m_active s) true)).
  { destruct o as [|k|q|n|f|d f|v|f1 f2]; cbn [step] in ST; try contradiction.
    - injection ST as <- _. auto.
    - unfold get_end in ST. destruct (nth_error (m_getting s) k) as [[q b]|]; injection ST as <- _; auto.
    - injection ST as <- _. auto.
    - unfold clear_start in ST. destruct (Nat.eqb _ _); [destruct (upd_check_size _ _)|]; injection ST as <- _; auto.
      split; [auto|]. cbn. rewrite set_other; [auto|]. now apply other_region.
    - unfold clear_end in ST. destruct (m_clearing s); [destruct (m_updating s)|]; [destruct (prepare_for_update _ _ _ _ _ _) as [[u m] x]| |]; injection ST as <- _; auto.
    - unfold write in ST. destruct (m_updating s); [destruct (upd_write _ _ _ _) as [[u m] x]|]; injection ST as <- _; auto.
    - unfold activate in ST. destruct (match m_updating s with Some q => _ | None => false end); [injection ST as <- _; auto|].
      destruct (m_valid s (get_region c (m_active s) false)); [injection ST as <- _; auto|].
      destruct (m_updating s); [|injection ST as <- _; auto].
      destruct (verify v _); [|injection ST as <- _; auto..].
      destruct (Bool.eqb _ _); assert (a = Done) by congruence; contradiction. }
  destruct SA as (SA & SV). unfold offer. rewrite SA, SV. destruct (m_valid s (get_region c (m_active s) true)) eqn:VR; [|auto].
  destruct (F (get_region c (m_active s) true)) as [Q|(_ & Q)]; [now rewrite Q|congruence].
Qed.
Print Assumptions C34_failed_update.

Lemma updating_started : forall V verify c m0 a0 v0 l s al, @history V verify c m0 a0 v0 l s al -> m_updating s <> None ->
  started (combine l al) = true.
Proof.
  intros V verify c m0 a0 v0 l. induction l as [|o l IH] using rev_ind; intros s al H U.
  - destruct H as (_ & _ & _ & _ & s0 & I0 & R). cbn in R. injection R as <- <-. exfalso. apply U. unfold init in I0.
    destruct (verify v0 _); try discriminate; injection I0 as <-; reflexivity.
  - destruct (history_snoc _ _ _ _ _ _ _ _ _ _ H) as (s1 & al1 & a & -> & LE & H1 & ST & _).
    rewrite combine_app by auto. unfold started. rewrite fold_left_app. fold (started (combine l al1)). cbn [combine fold_left].
    specialize (IH _ _ H1). destruct o as [|k|q|n|f|d f|v|f1 f2]; cbn [step] in ST; cbn [started1].
    + injection ST as <- <-. auto.
    + unfold get_end in ST. destruct (nth_error (m_getting s1) k) as [[q b]|]; injection ST as <- <-; auto.
    + injection ST as <- <-. auto.
    + unfold clear_start in ST. destruct (Nat.eqb _ _); [destruct (upd_check_size _ _)|]; injection ST as <- <-; auto.
    + unfold clear_end in ST. destruct (m_clearing s1); [destruct (m_updating s1) eqn:E|];
        [destruct (prepare_for_update _ _ _ _ _ _) as [[u m] x]| |]; injection ST as <- <-; auto; apply IH; congruence.
    + unfold write in ST. destruct (m_updating s1) eqn:E; [destruct (upd_write _ _ _ _) as [[u m] x]|]; injection ST as <- <-; auto; apply IH; congruence.
    + unfold activate in ST. destruct (match m_updating s1 with Some q => _ | None => false end); [injection ST as <- <-; auto|].
      destruct (m_valid s1 (get_region c (m_active s1) false)); [injection ST as <- <-; now elim U|].
      destruct (m_updating s1); [|injection ST as <- <-; now elim U].
      destruct (verify v _); [|injection ST as <- <-; now elim U..].
      destruct (Bool.eqb _ _); injection ST as <- <-; now elim U.
    + unfold erase_all, erase_one in ST. destruct (Nat.eqb _ _); [|injection ST as <- <-; auto].
      destruct (erase_region _ _ _ _ _) as [m x]. destruct x; try (injection ST as <- <-; auto; fail).
      destruct (Bool.eqb _ _); [injection ST as <- <-; now elim U|]. destruct (Nat.eqb _ _); [|injection ST as <- <-; now elim U].
      destruct (erase_region _ _ _ _ _) as [m' x]. injection ST as <- <-. now elim U.
Qed.

(** Data is accepted only while an update is under way; otherwise the flash is left alone. *)
Theorem C34_write_started : forall V verify c m0 a0 v0 l d f s al a, @history V verify c m0 a0 v0 (l ++ [Write V d f]) s (al ++ [a]) ->
  started (combine l al) = false ->
  a = NotCleared /\ flash_after verify c m0 a0 v0 (l ++ [Write V d f]) = flash_after verify c m0 a0 v0 l.
Proof.
  intros V verify c m0 a0 v0 l d f s al a H N. destruct (history_snoc _ _ _ _ _ _ _ _ _ _ H) as (s1 & al1 & b & E & LE & H1 & ST & _).
  apply app_inj_tail in E. destruct E as (<- & <-).
  assert (FA: forall x y z, history verify c m0 a0 v0 x y z -> flash_after verify c m0 a0 v0 x = m_flash y).
  { intros x y z (_ & _ & _ & _ & s0 & I0 & R). unfold flash_after. now rewrite I0, R. }
  rewrite (FA _ _ _ H), (FA _ _ _ H1). cbn [step] in ST. unfold write in ST.
  destruct (m_updating s1) eqn:E; [|injection ST as <- <-; auto].
  pose proof (updating_started _ _ _ _ _ _ _ _ _ H1) as K. rewrite E in K. specialize (K ltac:(discriminate)). congruence.
Qed.
Print Assumptions C34_write_started.

(** The writes of an update, all with success. *)
Fixpoint all_written {V} (verify : V -> list N -> verdict) (c : rcfg) (s : mgr) (ds : list (list N)) (f : faults) : option mgr :=
  match ds with
  | [] => Some s
  | d :: q => match step V verify c s (Write V d f) with (s1, Done) => all_written verify c s1 q f | _ => None end
  end.

Lemma all_written_spec : forall V verify c f ds s s' r, m_updating s = Some r -> @all_written V verify c s ds f = Some s' ->
  exists u m, write_all (f_write f) (m_upd s r) (m_flash s) ds = Some (u, m) /\
    s' = Mgr m (m_valid s) (m_ref s) (m_upd s') (Some r) (m_active s) (m_getting s) (m_clearing s) /\ m_upd s' r = u.
Proof.
  intros V verify c f. induction ds as [|d ds IH]; intros s s' r U H; cbn [all_written write_all] in *.
  - injection H as <-. exists (m_upd s r), (m_flash s). split; [auto|]. split; [|auto]. destruct s; cbn in *. now subst.
  - cbn [step] in H. unfold write in H. rewrite U in H. destruct (upd_write (f_write f) (m_upd s r) (m_flash s) d) as [[u1 m1] x] eqn:W.
    destruct x; try discriminate. set (s1 := Mgr m1 (m_valid s) (m_ref s) (set (m_upd s) r u1) (Some r) (m_active s) (m_getting s) (m_clearing s)) in *.
    destruct (IH s1 s' r eq_refl H) as (u & m & A1 & A2 & A3). cbn [s1 m_upd m_flash] in A1. rewrite set_same in A1.
    exists u, m. auto.
Qed.

(** A complete update: clear, write the announced amount of data, activate.  If the image in flash is good the update
    succeeds, and what is offered from then on begins with the data that was written, in order. *)
Theorem C34_update : forall V verify c m0 a0 v0 l s al n f1 f2 v s1 s2 s3 s4 ds a,
  @history V verify c m0 a0 v0 l s al -> progress_from V (0%nat, false) (combine l al) = (0%nat, false) ->
  bytes_ok (concat ds) -> (forall d, In d ds -> N.of_nat (length d) + r_size c < 2 ^ 32) -> n = N.of_nat (length (concat ds)) ->
  step V verify c s (ClearStart V n) = (s1, Nothing) -> step V verify c s1 (ClearEnd V f1) = (s2, Done) ->
  all_written verify c s2 ds f2 = Some s3 -> step V verify c s3 (Activate V v) = (s4, a) ->
  let r := get_region c (m_active s) false in
  firstn (length (concat ds)) (contents c (m_flash s3) r) = concat ds /\
  (a = Done <-> verify v (contents c (m_flash s3) r) = Good) /\
  (a = Done -> offer c s4 = Some (r, contents c (m_flash s3) r)).
Proof.
  intros until a. intros H PR BO DL -> S1 S2 W S4 r. destruct (history_inv _ _ _ _ _ _ _ _ _ H) as (_ & I1). rewrite PR in I1.
  assert (C: rcfg_ok c) by apply H. destruct (i_upd _ _ _ _ I1 r) as (U1 & U2 & U3). pose proof (rc_end c C r) as RE.
  cbn [step] in S1. unfold clear_start in S1. fold r in S1. destruct (Nat.eqb_spec (m_ref s r) 0) as [R|R]; [|discriminate].
  unfold upd_check_size in S1. rewrite U2 in S1. destruct (N.ltb_spec (r_size c) (N.of_nat (length (concat ds)))) as [L|L]; [discriminate|].
  injection S1 as <-. cbn [step] in S2. unfold clear_end in S2. cbn [m_clearing m_updating m_upd m_flash m_valid m_ref m_active m_getting] in S2.
  pose proof (prepare_spec (f_read f1) (f_erase f1) (r_blk c) (rc_blk c C) (m_upd s r) (m_flash s) (N.of_nat (length (concat ds))) (N.of_nat (length (concat ds))) (r_base c r) (r_size c)) as P.
  fold (prepare_for_update (f_read f1) (f_erase f1) (r_blk c) (m_upd s r) (m_flash s) (N.of_nat (length (concat ds)))) in P.
  destruct (prepare_for_update (f_read f1) (f_erase f1) (r_blk c) (m_upd s r) (m_flash s) (N.of_nat (length (concat ds)))) as [[u m] x].
  destruct P as (_ & _ & P); [split; lia|lia|]. destruct x; try discriminate. destruct (P eq_refl) as (_ & P2 & P3). clear P. injection S2 as <-.
  match type of W with all_written _ _ ?x _ _ = _ => destruct (all_written_spec V verify c f2 ds x s3 r eq_refl W) as (u3 & m3 & A1 & A2 & A3) end. cbn [m_upd m_flash m_valid m_ref m_active m_getting m_clearing] in A1, A2.
  rewrite set_same, P2 in A1.
  pose proof (fun a b c d e f => write_all_spec (f_write f2) ds _ m u3 m3 (N.of_nat (length (concat ds))) a b c d e f A1) as X.
  cbn [u_base u_max u_off u_size] in X. rewrite U1, U2, N.add_0_r in X.
  destruct X as (_ & X2 & _ & X4); auto; try lia. { rewrite U1 in P3. exact P3. }
  assert (FR: firstn (length (concat ds)) (contents c (m_flash s3) r) = concat ds).
  { rewrite A2. cbn [m_flash]. unfold contents. rewrite <- X2 at 2. unfold img_read.
    rewrite firstn_map. f_equal. clear - L. 
    assert (E: forall k b n, (k <= n)%nat -> firstn k (seq b n) = seq b k).
    { induction k as [|k IH]; intros b [|n0] Q; cbn; auto; [lia|]. f_equal. apply IH. lia. }
    apply E. lia. }
  split; [exact FR|]. cbn [step] in S4. unfold activate in S4. rewrite A2 in S4. cbn [m_upd m_flash m_valid m_ref m_active m_getting m_clearing m_updating] in S4.
  unfold remaining_bytes in S4. rewrite A3, X4 in S4.
  assert (Z: (0 <? Z.of_N (N.of_nat (length (concat ds))) - Z.of_nat (length (concat ds)))%Z = false) by lia. rewrite Z in S4. clear Z.
  fold r in S4. rewrite set_same in S4. rewrite A2. cbn [m_flash].
  destruct (verify v (contents c m3 r)) eqn:VE.
  - split; [split; [auto|]|].
    + intros _. destruct (Bool.eqb r _); congruence.
    + intros _. destruct (Bool.eqb_spec r (get_region c (m_active s) true)) as [E|E]; injection S4 as <- _; unfold offer; cbn [m_active m_valid m_flash].
      * rewrite <- E, set_same. reflexivity.
      * assert (T: r_two c = true) by (destruct (r_two c) eqn:T; [auto|]; elim E; unfold r; now rewrite !one_region).
        assert (G: get_region c (negb (m_active s)) true = r) by (unfold r, get_region; now rewrite T). rewrite G.
        rewrite set_other, set_same; [reflexivity|]. unfold r, get_region. rewrite T. destruct (m_active s); discriminate.
  - split; [split; [|discriminate]|]; intros ->; congruence.
  - split; [split; [|discriminate]|]; intros ->; congruence.
Qed.
Print Assumptions C34_update.

(** Concrete managers: images are good if they begin with 1. *)
Definition toy_verify (_ : unit) (l : list N) : verdict := match l with 1 :: _ => Good | _ => Bad end.
Definition toy_cfg (two : bool) : rcfg := RCfg two (fun r => if r then 64 else 0) 32 16.
Definition toy_flash : image := fun x => if x =? 0 then 1 else 255.
Definition works : faults := Faults (fun _ => false) (fun _ => false) (fun _ => Some 100%nat).
Definition toy_run (two : bool) (m : image) (l : list (op unit)) : mgr * list answer :=
  match init unit toy_verify (toy_cfg two) m false tt with Some s => run unit toy_verify (toy_cfg two) s l | None => (Mgr m (fun _ => false) (fun _ => 0%nat) (fun _ => upd_init 0 0) None false [] None, []) end.

Lemma toy_ok : forall two, rcfg_ok (toy_cfg two).
Proof.
  intros two. constructor; cbn.
  - reflexivity.
  - intros []; reflexivity.
  - intros _ x y X Y E. assert (x / 16 <= 1) by (pose proof (N.div_lt_upper_bound x 16 2); lia).
    assert (4 <= y / 16) by (apply N.div_le_lower_bound; lia). lia.
Qed.

Definition update (ds : list (list N)) : list (op unit) :=
  [ClearStart unit (N.of_nat (length (concat ds))); ClearEnd unit works] ++ map (fun d => Write unit d works) ds ++ [Activate unit tt].
Definition toy_history : list (op unit) :=
  [GetStart unit; GetEnd unit 0] ++ update [[1; 2]; [3]] ++ [GetStart unit; ClearStart unit 4; GetEnd unit 0; Free unit false; GetStart unit] ++
  update [[9; 9]] ++ [GetEnd unit 0; EraseAll unit works works].

Example C34_history : exists s al, history toy_verify (toy_cfg true) toy_flash false tt (firstn 15 toy_history) s al /\
  al = [Nothing; Image false; Nothing; Done; Done; Done; Done; Nothing; InUse; Image true; Nothing; Nothing; Nothing; Done; Done] /\
  held (combine (firstn 15 toy_history) al) true = 1%nat /\ firstn 4 (contents (toy_cfg true) (m_flash s) true) = [1; 2; 3; 255].
Proof.
  eexists _, _. split.
  - split; [apply toy_ok|]. split; [repeat constructor|]. 
    assert (R: exists s0, init unit toy_verify (toy_cfg true) toy_flash false tt = Some s0) by (eexists; reflexivity).
    split; [|split; [|eexists; split; [reflexivity|]]].
    3: { rewrite surjective_pairing with (p := run _ _ _ _ _). reflexivity. }
    + vm_compute. repeat split; auto.
    + vm_compute. repeat split; auto.
  - vm_compute. auto.
Qed.

(** The whole history, with an update that fails while an image is being fetched: everything is erased except the
    image in use. *)
Example C34_toy_answers : snd (toy_run true toy_flash toy_history) =
  [Nothing; Image false; Nothing; Done; Done; Done; Done; Nothing; InUse; Image true; Nothing; Nothing; Nothing; Done; Done; BadImage; Image true; InUse].
Proof. vm_compute. reflexivity. Qed.

Example C34_update_case : exists s1 s2 s3 s4, let s := fst (toy_run true toy_flash []) in
  step unit toy_verify (toy_cfg true) s (ClearStart unit 3) = (s1, Nothing) /\ step unit toy_verify (toy_cfg true) s1 (ClearEnd unit works) = (s2, Done) /\
  all_written toy_verify (toy_cfg true) s2 [[1; 2]; [3]] works = Some s3 /\ step unit toy_verify (toy_cfg true) s3 (Activate unit tt) = (s4, Done).
Proof.
  cbv zeta. set (s := fst (toy_run true toy_flash [])).
  set (s1 := fst (step unit toy_verify (toy_cfg true) s (ClearStart unit 3))).
  set (s2 := fst (step unit toy_verify (toy_cfg true) s1 (ClearEnd unit works))).
  destruct (all_written toy_verify (toy_cfg true) s2 [[1; 2]; [3]] works) as [s3|] eqn:W.
  2: { exfalso. apply (f_equal (fun x => match x with Some _ => true | None => false end)) in W. vm_compute in W. discriminate. }
  exists s1, s2, s3. eexists.
  split; [rewrite (surjective_pairing (step _ _ _ s _)); apply f_equal2; [reflexivity|vm_compute; reflexivity]|].
  split; [rewrite (surjective_pairing (step _ _ _ s1 _)); apply f_equal2; [reflexivity|vm_compute; reflexivity]|]. split; [exact W|].
  rewrite (surjective_pairing (step _ _ _ s3 _)). apply f_equal2; [reflexivity|].
  apply (f_equal (fun x => match x with Some y => Some (snd (step unit toy_verify (toy_cfg true) y (Activate unit tt))) | None => None end)) in W.
  vm_compute in W. vm_compute. congruence.
Qed.

(** A write before the first clear, and one after the update has been activated. *)
Example C34_write_started_case : snd (toy_run true toy_flash ([Write unit [7] works] ++ update [[1; 2]] ++ [Write unit [7] works])) =
  [NotCleared; Nothing; Done; Done; Done; NotCleared].
Proof. vm_compute. reflexivity. Qed.

(** An activation between the two halves of a call that gets the image is not protected against.  With two regions, the
    call can return nothing and still keep its reference, so that the region can never be cleared again although nobody
    has its image. *)
Theorem C34_lost_reference_refuted : exists l al s, toy_run true toy_flash (l ++ [ClearStart unit 3]) = (s, al ++ [InUse]) /\
  (forall r, held (combine l al) r = 0%nat) /\ honest (fun _ => 0%nat) (combine l al) /\ m_getting s = [] /\ m_clearing s = None.
Proof.
  exists ([GetStart unit] ++ update [[1; 2; 3]] ++ [GetEnd unit 0]). eexists [_; _; _; _; _; _], _.
  split; [rewrite surjective_pairing with (p := toy_run _ _ _); apply f_equal2; [reflexivity|vm_compute; reflexivity]|].
  split; [intros []; reflexivity|]. split; [vm_compute; repeat split; auto|]. split; vm_compute; reflexivity.
Qed.
Print Assumptions C34_lost_reference_refuted.

(** With one region, the call can return the image without a reference to it, and the region is then erased while the
    image is in use. *)
Theorem C34_unprotected_image_refuted : exists l al s1 s2, toy_run false (fun _ => 255) l = (s1, al) /\ held (combine l al) false = 1%nat /\
  honest (fun _ => 0%nat) (combine l al) /\
  toy_run false (fun _ => 255) (l ++ [ClearStart unit 3; ClearEnd unit works]) = (s2, al ++ [Nothing; Done]) /\
  contents (toy_cfg false) (m_flash s2) false <> contents (toy_cfg false) (m_flash s1) false.
Proof.
  exists ([ClearStart unit 3; ClearEnd unit works; Write unit [1; 2; 3] works; GetStart unit; Activate unit tt; GetEnd unit 0]).
  exists [Nothing; Done; Done; Nothing; Done; Image false].
  eexists _, _. split; [rewrite surjective_pairing with (p := toy_run _ _ _); apply f_equal2; [reflexivity|vm_compute; reflexivity]|].
  split; [reflexivity|]. split; [repeat split; auto|].
  split; [rewrite surjective_pairing with (p := toy_run _ _ _); apply f_equal2; [reflexivity|vm_compute; reflexivity]|].
  vm_compute. discriminate.
Qed.
Print Assumptions C34_unprotected_image_refuted.
