(** Proofs about the attestation log (C22) and histories of calls (C20, C21). *)
From Coq Require Import List NArith ZArith Lia Bool Arith.
From Coq Require Import ZifyBool ZifyNat ZifyN.
From Verif Require Import Base BufferUtil_Model BufferUtil_Proofs FlashStore_Layout_Proofs.
From Verif Require Import Pcr_Model Pcr_Spec Pcr_Proofs Pcr_Log_Proofs.
Import ListNotations.

Lemma Forall2_refl : forall (A : Type) (R : A -> A -> Prop) l, (forall x, R x x) -> Forall2 R l l.
Proof. induction l; constructor; auto. Qed.
Lemma Forall2_nth_error : forall (A B : Type) (R : A -> B -> Prop) l l', Forall2 R l l' ->
  forall i, match nth_error l i, nth_error l' i with Some x, Some y => R x y | None, None => True | _, _ => False end.
Proof. induction 1; destruct i; cbn [nth_error]; auto. apply IHForall2. Qed.
Lemma Forall2_upd : forall (A : Type) (R : A -> A -> Prop) l i x y, (forall z, R z z) ->
  nth_error l i = Some x -> R x y -> Forall2 R l (upd l i y).
Proof.
  induction l; destruct i; cbn [upd nth_error]; intros; try discriminate; constructor; auto.
  - congruence.
  - apply Forall2_refl; auto.
  - eapply IHl; eauto.
Qed.

Section Engine.
  Variable H : algo -> list N -> list N.
  Hypothesis H_length : forall a msg, length (H a msg) = hash_len a.

  Lemma length_extend_chain : forall a ds, length (extend_chain H a ds) = hash_len a.
  Proof. intros. apply (length_chain_from H H_length). apply repeat_length. Qed.

  Lemma attestation_entries_app : forall l1 l2 id,
    attestation_entries H id (l1 ++ l2) =
    attestation_entries H id l1 ++ attestation_entries H (id + length l1) l2.
  Proof.
    induction l1 as [|x t IH]; intros l2 id; cbn [app attestation_entries length].
    - now rewrite Nat.add_0_r.
    - rewrite IH, <- app_assoc. do 2 f_equal. f_equal. lia.
  Qed.

  Lemma length_attestation_entry : forall id pcr i b, bank_ok b -> i < length (mlist b) ->
    length (attestation_entry H id (pcr, i, b)) = att_entry_len (balgo b).
  Proof.
    intros id pcr i b OK L. unfold attestation_entry. rewrite !app_length, !length_le_bytes.
    rewrite length_extend_chain. unfold digest_of. rewrite firstn_length.
    eapply (Forall_forall meas_ok (mlist b)) in OK; [destruct OK as [-> _]|apply nth_In; eauto].
    pose proof (hash_len_le (balgo b)). rewrite Nat.min_l by lia. unfold att_entry_len. cbn [length]. lia.
  Qed.

  Lemma length_bank_attestation : forall b pcr, bank_ok b -> forall n i id, i + n <= length (mlist b) ->
    length (attestation_entries H id (map (fun i => (pcr, i, b)) (seq i n))) = n * att_entry_len (balgo b).
  Proof.
    intros b pcr OK. induction n; intros i id L; cbn [seq map attestation_entries]; [reflexivity|].
    rewrite app_length, length_attestation_entry by (auto; lia). rewrite IHn by lia. lia.
  Qed.

  Lemma length_attestation_entries : forall s pcr id, store_ok s ->
    length (attestation_entries H id (entries pcr s)) = attestation_log_size s.
  Proof.
    induction s as [|b t IH]; intros pcr id OK; cbn [entries attestation_log_size]; [reflexivity|].
    inversion OK as [|? ? OKb OKt]; subst.
    rewrite attestation_entries_app, app_length, IH by auto. f_equal.
    unfold bank_entries, num_measurements. destruct (explicit b); [reflexivity|].
    rewrite length_bank_attestation by (auto; lia). reflexivity.
  Qed.

  (** Entries built from the computed bank are the specified entries of the original one. *)
  Lemma att_entry_eq : forall b b' id pcr i, bank_same b b' ->
    firstn (hash_len (balgo b)) (value (get_m b' i)) =
      extend_chain H (balgo b) (map (digest_of (balgo b)) (firstn (S i) (mlist b))) ->
    att_entry id pcr i (balgo b') (get_m b' i) = attestation_entry H id (pcr, i, b).
  Proof.
    intros b b' id pcr i (S1 & S2 & S3 & S4 & S5) V.
    unfold att_entry, attestation_entry. rewrite S2. rewrite V.
    destruct (S4 i) as (D & _ & E & _). unfold digest_of. fold (get_m b i). rewrite D, E, !le32_bytes.
    replace (att_entry_len (balgo b)) with (25 + 2 * hash_len (balgo b)) by (unfold att_entry_len; lia).
    replace (N.of_nat pcr * 256 + N.of_nat i)%N with (N.of_nat (256 * pcr + i)) by lia.
    replace (alg_id (balgo b)) with (tcg_alg (balgo b)) by (destruct (balgo b); reflexivity).
    reflexivity.
  Qed.

  Lemma att_loop_spec : forall b b' pcr, bank_same b b' ->
    (forall i, i < length (mlist b) -> firstn (hash_len (balgo b)) (value (get_m b' i)) =
       extend_chain H (balgo b) (map (digest_of (balgo b)) (firstn (S i) (mlist b)))) ->
    forall n i id off len pos buf id' o l p bf, i + n <= length (mlist b) -> pos + len <= length buf ->
    att_loop n i id pcr b' off len pos buf = (id', o, l, p, bf) ->
    copied (attestation_entries H id (map (fun i => (pcr, i, b)) (seq i n))) off len pos buf o l p bf /\
    (l = 0 \/ id' = id + n).
  Proof.
    intros b b' pcr BS V. induction n as [|n IH]; intros i id off len pos buf id' o l p bf L B A;
      cbn [att_loop seq map attestation_entries] in *.
    - assert (id' = id /\ o = off /\ l = len /\ p = pos /\ bf = buf) as (-> & -> & -> & -> & ->)
        by (repeat split; congruence).
      split; [apply copied_nil|lia].
    - destruct (Nat.eqb_spec len 0) as [Z|Z].
      { assert (id' = id /\ o = off /\ l = len /\ p = pos /\ bf = buf) as (-> & -> & -> & -> & ->)
          by (repeat split; congruence).
        split; [|left; auto]. rewrite Z. apply copied_full. }
      destruct (copy_segments _ _ _ _ _) as [[[o1 l1] p1] b1] eqn:E.
      apply copy_segments_copied in E; [|auto]. cbn [concat] in E. rewrite app_nil_r in E.
      rewrite (att_entry_eq b b' id pcr i BS (V i ltac:(lia))) in E.
      destruct (copied_bound _ _ _ _ _ _ _ _ _ E B) as (B1 & B2 & B3).
      apply IH in A; [|lia|auto]. destruct A as [A1 A2]. split; [|lia].
      eapply copied_trans; eauto.
  Qed.

  Lemma att_store_loop_full : forall hs t pcr id off pos buf,
    att_store_loop H hs t pcr id off 0 pos buf = (t, Ok (pos, buf)).
  Proof. intros. destruct t; reflexivity. Qed.

  Lemma att_store_loop_spec : forall hs t pcr id off len pos buf t' r, pos + len <= length buf ->
    att_store_loop H hs t pcr id off len pos buf = (t', r) ->
    Forall2 bank_same t t' /\
    ((exists pos' buf' off' len', r = Ok (pos', buf') /\
        copied (attestation_entries H id (entries pcr t)) off len pos buf off' len' pos' buf') \/
     (exists k, r = Err (HashError (hs k)) /\ hs k <> 0%N)).
  Proof.
    intros hs. induction t as [|b t IH]; intros pcr id off len pos buf t' r B A; cbn [att_store_loop] in A.
    - injection A as <- <-. split; [constructor|]. left. exists pos, buf, off, len. split; auto.
      apply copied_nil.
    - destruct (Nat.eqb_spec len 0) as [Z|Z].
      { injection A as <- <-. split; [apply Forall2_refl, bank_same_refl|]. left.
        exists pos, buf, off, 0. split; auto. rewrite Z. apply copied_full. }
      unfold num_measurements in A. cbn [entries]. unfold bank_entries.
      destruct (explicit b) eqn:X.
      { cbn [Nat.eqb] in A. destruct (att_store_loop _ _ _ _ _ _ _ _ _) as [t1 r1] eqn:E.
        injection A as <- <-. apply IH in E; auto. destruct E as [E1 E2]. split; auto.
        constructor; auto. apply bank_same_refl. }
      destruct (Nat.eqb_spec (length (mlist b)) 0) as [Z0|Z0].
      { destruct (att_store_loop _ _ _ _ _ _ _ _ _) as [t1 r1] eqn:E.
        injection A as <- <-. apply IH in E; auto. destruct E as [E1 E2]. split.
        - constructor; auto. apply bank_same_refl.
        - rewrite Z0. cbn [seq map app]. auto. }
      destruct (pcr_compute H hs id b None) as [[b1 out1] r1] eqn:C.
      apply (pcr_compute_spec H H_length) in C. destruct C as (BS & C). rewrite X in C.
      destruct C as [(e & -> & _ & [(_ & o & ? & _)|(_ & k & _ & -> & NZ)])|(-> & _ & _ & V)].
      + discriminate.
      + injection A as <- <-. split.
        * constructor; auto. apply Forall2_refl, bank_same_refl.
        * right. eauto.
      + destruct BS as (S1 & BS'). assert (bank_same b b1) as BS by (split; auto).
        rewrite S1 in A.
        destruct (att_loop _ _ _ _ _ _ _ _ _) as [[[[id' o] l] p] bf] eqn:AL.
        destruct (att_loop_spec b b1 pcr BS V (length (mlist b)) 0 _ _ _ _ _ _ _ _ _ _ (le_n _) B AL) as [CP ID].
        destruct (copied_bound _ _ _ _ _ _ _ _ _ CP B) as (B1 & B2 & B3).
        destruct (att_store_loop _ _ _ _ _ _ _ _ _) as [t1 r1] eqn:E.
        injection A as <- <-.
        rewrite attestation_entries_app, map_length, seq_length.
        destruct (Nat.eq_dec l 0) as [Zl|Zl].
        * rewrite Zl, att_store_loop_full in E. injection E as <- <-. split.
          -- constructor; auto. apply Forall2_refl, bank_same_refl.
          -- left. exists p, bf, 0, 0. split; auto. eapply copied_trans; [exact B|exact CP|].
             rewrite Zl. apply copied_full.
        * destruct ID as [?|ID]; [contradiction|]. subst id'.
          apply IH in E; auto. destruct E as [E1 E2]. split; [constructor; auto|].
          destruct E2 as [(p' & b' & o' & l' & -> & CC)|?]; [left|right; auto].
          exists p', b', o', l'. split; auto. eapply copied_trans; eauto.
  Qed.

  Lemma store_get_attestation_log_spec : forall hs s off len buf s' r, len <= length buf ->
    store_get_attestation_log H hs s off len buf = (s', r) ->
    Forall2 bank_same s s' /\
    (r = Ok (read_result (attestation_log H s) off len buf) \/
     exists k, r = Err (HashError (hs k)) /\ hs k <> 0%N).
  Proof.
    intros hs s off len buf s' r B A. unfold store_get_attestation_log in A.
    apply att_store_loop_spec in A; [|auto]. destruct A as [A1 A2]. split; auto.
    destruct A2 as [(p & b & o & l & -> & C)|A2]; [left|right; auto].
    f_equal. eapply copied_read_result. exact C.
  Qed.

  Lemma sequential_loop_spec : forall s pcr id,
    sequential_loop s pcr id =
    match nth_error (entries pcr s) id with Some (p, i, _) => Ok (p, i) | None => Err InvalidSequentialId end.
  Proof.
    induction s as [|b t IH]; intros pcr id; cbn [sequential_loop entries].
    - destruct id; reflexivity.
    - unfold num_measurements, bank_entries. destruct (explicit b); [cbn [Nat.eqb app]; apply IH|].
      destruct (Nat.eqb_spec (length (mlist b)) 0) as [Z|Z].
      { rewrite Z. cbn [seq map app]. apply IH. }
      destruct (Nat.leb_spec (length (mlist b)) id).
      + rewrite IH. rewrite nth_error_app2; rewrite map_length, seq_length; auto.
      + rewrite nth_error_app1 by (rewrite map_length, seq_length; auto).
        rewrite nth_error_map. rewrite (nth_error_nth' _ _ _ 0) by (rewrite seq_length; auto).
        rewrite seq_nth by auto. reflexivity.
  Qed.

  (* ---------------------------------------------------------------------------------------- *)
  (** Histories. *)

  Definition same_core (m m' : meas) : Prop :=
    digest m' = digest m /\ version m' = version m /\ f_event m' = f_event m /\ f_version m' = f_version m /\
    f_constant m' = f_constant m.
  Lemma same_core_refl : forall m, same_core m m.
  Proof. unfold same_core. auto. Qed.
  Lemma same_core_trans : forall a b c, same_core a b -> same_core b c -> same_core a c.
  Proof. unfold same_core. intros a b c (?&?&?&?&?) (?&?&?&?&?). repeat split; congruence. Qed.

  Definition shape (s s' : store) : Prop :=
    length s' = length s /\ (forall q, algorithm s' q = algorithm s q) /\
    (forall q, option_map explicit (nth_error s' q) = option_map explicit (nth_error s q)) /\
    (forall q j, measurement s' q j = None <-> measurement s q j = None) /\
    (store_ok s -> store_ok s').

  Lemma shape_refl : forall s, shape s s.
  Proof. intros. unfold shape. splits; auto. intros. reflexivity. Qed.
  Lemma shape_trans : forall a b c, shape a b -> shape b c -> shape a c.
  Proof.
    unfold shape. intros a b c (A1 & A2 & A3 & A4 & A5) (B1 & B2 & B3 & B4 & B5). splits.
    - congruence.
    - intros. rewrite B2. auto.
    - intros. rewrite B3. auto.
    - intros. rewrite B4. auto.
    - auto.
  Qed.

  Lemma bank_same_shape : forall s s', Forall2 bank_same s s' ->
    shape s s' /\ forall p i m, measurement s p i = Some m ->
      exists m', measurement s' p i = Some m' /\ same_but_value m m'.
  Proof.
    intros s s' F. pose proof (Forall2_nth_error _ _ _ _ _ F) as N.
    assert (forall p i, match measurement s p i, measurement s' p i with
              | Some x, Some y => same_but_value x y | None, None => True | _, _ => False end) as M.
    { intros. unfold measurement. specialize (N p).
      destruct (nth_error s p) as [b|], (nth_error s' p) as [b'|]; auto; try contradiction.
      destruct N as (N1 & N2 & N3 & N4 & N5).
      destruct (Nat.lt_ge_cases i (length (mlist b))).
      - rewrite !(nth_error_nth' _ _ _ meas0) by lia. apply N4.
      - rewrite !(proj2 (nth_error_None _ _)) by lia. auto. }
    split.
    - unfold shape. splits.
      + clear - F. induction F; cbn [length]; auto.
      + intros q. unfold algorithm. specialize (N q).
        destruct (nth_error s q), (nth_error s' q); try contradiction; auto. cbn. destruct N as (? & ? & _). congruence.
      + intros q. specialize (N q).
        destruct (nth_error s q), (nth_error s' q); try contradiction; auto. cbn. destruct N as (? & ? & ? & _). congruence.
      + intros q j. specialize (M q j). destruct (measurement s q j), (measurement s' q j); try contradiction; split; congruence.
      + clear - F. induction F as [|x y ? ? BS F IH]; intros O; [constructor|].
        inversion O; subst. constructor; [|apply IH; auto]. apply BS. auto.
    - intros p i m E. specialize (M p i). rewrite E in M. destruct (measurement s' p i); [eauto|contradiction].
  Qed.

  Lemma put_shape : forall s p b i m', nth_error s p = Some b -> i < length (mlist b) ->
    (meas_ok (get_m b i) -> meas_ok m') -> shape s (upd s p (put_m b i m')).
  Proof.
    intros s p b i m' E L OK. destruct (put_only_changed s p b i m' E) as (A1 & A2 & A3 & A4).
    unfold shape. splits; auto.
    - intros q j. destruct (Nat.eq_dec q p) as [->|D]; [destruct (Nat.eq_dec j i) as [->|D]|].
      + rewrite put_measurement by auto. unfold measurement. rewrite E, (nth_error_nth' _ _ _ meas0) by auto.
        split; discriminate.
      + rewrite A4 by congruence. reflexivity.
      + rewrite A4 by congruence. reflexivity.
    - intros SO. unfold store_ok. apply Forall_upd; auto.
      eapply (Forall_forall bank_ok s) in SO; [|eapply nth_error_In; eauto].
      unfold bank_ok, put_m. cbn [mlist]. apply Forall_upd; auto. apply OK.
      eapply (Forall_forall meas_ok) in SO; [exact SO|]. apply nth_In. auto.
  Qed.

  (** Everything a call can do to the measurements. *)
  Lemma step_measurement : forall hs s o,
    (forall off len buf, o = AttestationLog off len buf -> len <= length buf) ->
    shape s (fst (step H hs s o)) /\
    forall p i m, measurement s p i = Some m ->
      exists m', measurement (fst (step H hs s o)) p i = Some m' /\
        (same_core m m' \/ (update_target o = Some (p, i) /\ f_constant m = false /\ snd (step H hs s o) = Ok 0)).
  Proof.
    intros hs s o AL.
    assert (forall e, step H hs s o = (s, Err e) -> shape s (fst (step H hs s o)) /\
      forall p i m, measurement s p i = Some m ->
      exists m', measurement (fst (step H hs s o)) p i = Some m' /\
        (same_core m m' \/ (update_target o = Some (p, i) /\ f_constant m = false /\ snd (step H hs s o) = Ok 0)))
      as NOP.
    { intros e E. rewrite E. cbn [fst snd]. split; [apply shape_refl|]. intros. exists m. split; auto.
      left. apply same_core_refl. }
    destruct (update_target o) as [[p i]|] eqn:T.
    { destruct (update_step H hs s o p i T) as [(e & E)|(b & m' & N & L & F & E & U)]; [eauto|].
      destruct U as (U1 & U2 & U3 & U4 & U5 & U6 & U7 & _).
      rewrite E. cbn [fst snd]. split.
      - apply put_shape; auto. unfold meas_ok. rewrite U1. intuition.
      - intros q j m M. destruct (put_only_changed s p b i m' N) as (_ & _ & _ & A4).
        destruct (Nat.eq_dec q p) as [->|D]; [destruct (Nat.eq_dec j i) as [->|D]|].
        + exists m'. split; [apply put_measurement; auto|]. right. split; auto.
          unfold measurement in M. rewrite N, (nth_error_nth' _ _ _ meas0) in M by auto.
          injection M as <-. auto.
        + exists m. rewrite A4 by congruence. split; auto. left. apply same_core_refl.
        + exists m. rewrite A4 by congruence. split; auto. left. apply same_core_refl. }
    destruct (config_target o) as [[p i]|] eqn:T2.
    { destruct (config_step H hs s o p i T2) as [(e & E)|(b & m' & N & L & E & S)]; [eauto|].
      destruct S as (S1 & S2 & S3 & S4 & S5 & S6).
      rewrite E. cbn [fst snd]. split.
      - apply put_shape; auto. unfold meas_ok. rewrite S1, S2. auto.
      - intros q j m M. destruct (put_only_changed s p b i m' N) as (_ & _ & _ & A4).
        destruct (Nat.eq_dec q p) as [->|D]; [destruct (Nat.eq_dec j i) as [->|D]|].
        + exists m'. split; [apply put_measurement; auto|]. left.
          unfold measurement in M. rewrite N, (nth_error_nth' _ _ _ meas0) in M by auto.
          injection M as <-. unfold same_core. auto.
        + exists m. rewrite A4 by congruence. split; auto. left. apply same_core_refl.
        + exists m. rewrite A4 by congruence. split; auto. left. apply same_core_refl. }
    assert (Forall2 bank_same s (fst (step H hs s o))) as BS.
    { destruct o; cbn [update_target config_target] in *; try discriminate; cbn [step].
      - unfold on_bank. destruct (nth_error s pcr) as [b|] eqn:N; [|apply Forall2_refl, bank_same_refl].
        destruct (pcr_compute H hs 0 b out) as [[b1 out1] r1] eqn:C.
        apply (pcr_compute_spec H H_length) in C. destruct C as (C & _). cbn [fst].
        eapply Forall2_upd; eauto. apply bank_same_refl.
      - destruct (store_get_attestation_log H hs s offset len buf) as [s' r] eqn:E.
        apply store_get_attestation_log_spec in E; [|eapply AL; reflexivity]. destruct E as [E _].
        destruct r as [[? ?]| |]; exact E. }
    destruct (bank_same_shape _ _ BS) as [SH M]. split; auto.
    intros p i m E. destruct (M p i m E) as (m' & E' & S). exists m'. split; auto. left.
    unfold same_but_value in S. unfold same_core. intuition.
  Qed.

  (** Calls whose log buffers are as long as announced. *)
  Definition calls_ok (calls : list (op * (nat -> N))) : Prop :=
    Forall (fun c => forall off len buf, fst c = AttestationLog off len buf -> len <= length buf) calls.

  Lemma run_shape : forall calls s, calls_ok calls -> shape s (run H s calls).
  Proof.
    induction calls as [|[o hs] t IH]; intros s OK; cbn [run fold_left]; [apply shape_refl|].
    inversion OK; subst. eapply shape_trans; [|apply IH; auto].
    cbn [fst snd]. apply step_measurement; auto.
  Qed.

  Lemma run_keeps : forall calls s p i m, calls_ok calls -> measurement s p i = Some m ->
    (f_constant m = true \/ Forall (fun c => update_target (fst c) <> Some (p, i)) calls) ->
    exists m', measurement (run H s calls) p i = Some m' /\ same_core m m'.
  Proof.
    induction calls as [|[o hs] t IH]; intros s p i m OK M C; cbn [run fold_left].
    - exists m. split; auto. apply same_core_refl.
    - inversion OK as [|? ? OK1 OK2]; subst. cbn [fst snd] in *.
      destruct (step_measurement hs s o OK1) as [_ SM]. destruct (SM p i m M) as (m1 & M1 & D).
      assert (same_core m m1) as SC.
      { destruct D as [D|(D1 & D2 & _)]; auto. destruct C as [C|C]; [congruence|]. inversion C; subst.
        cbn [fst] in *. contradiction. }
      destruct (IH (fst (step H hs s o)) p i m1 OK2 M1) as (m' & M' & S').
      { destruct C as [C|C]; [left|right; inversion C; auto]. destruct SC as (_ & _ & _ & _ & SC). congruence. }
      exists m'. split; auto. eapply same_core_trans; eauto.
  Qed.

  Lemma store_init_ok : forall cfg, store_ok (store_init cfg).
  Proof.
    intros. unfold store_ok, store_init. apply Forall_forall. intros b Hb. apply in_map_iff in Hb.
    destruct Hb as ([n a] & <- & _). unfold pcr_init, bank_ok. cbn [fst snd].
    destruct (n =? 0); cbn [mlist]; [repeat constructor|].
    apply Forall_forall. intros m Hm. apply repeat_spec in Hm. subst. split; reflexivity.
  Qed.
End Engine.
