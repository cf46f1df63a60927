(** Proofs about the KDF in counter mode and HKDF. *)
From Coq Require Import List NArith Lia Bool Arith ZifyBool ZifyNat ZifyN.
From Verif Require Import Base Hmac_Model Hmac_Spec Hmac_Proofs.
Import ListNotations.

Lemma be32_int32 : forall x, be32 x = int32 x.
Proof. intros x. unfold int32. cbn [map]. change (256 ^ 3)%N with 16777216%N. change (256 ^ 2)%N with 65536%N.
  change (256 ^ 1)%N with 256%N. change (256 ^ 0)%N with 1%N. now rewrite N.div_1_r. Qed.

Lemma rounds_bounds : forall n len, 0 < len -> n <= rounds n len * len /\ rounds n len <= n /\ (0 < n -> (rounds n len - 1) * len < n).
Proof.
  intros n len L. unfold rounds. assert (L' : len <> 0) by (clear - L; lia).
  pose proof (Nat.div_mod n len L') as D. pose proof (Nat.mod_upper_bound n len L') as U.
  set (q := n / len) in *. set (r := n mod len) in *. clearbody q r.
  assert (Q: q <= q * len) by (clear - L; nia).
  assert (Q2: (q - 1) * len = q * len - len) by (rewrite Nat.mul_sub_distr_r; lia).
  rewrite (Nat.mul_comm len) in D.
  destruct (r =? 0) eqn:Z.
  - rewrite Nat.add_0_r. split; [lia|]. split; [lia|]. intros P. lia.
  - replace (q + 1 - 1) with q by lia. rewrite Nat.mul_add_distr_r. split; [lia|]. split; lia.
Qed.

Section Prefix.
Variable f : nat -> list N.
Variable len : nat.
Hypothesis F : forall i, 0 < i -> length (f i) = len.

Lemma concat_length : forall k i, 0 < i -> length (concat (map f (seq i k))) = k * len.
Proof. induction k as [|k IH]; intros i P; cbn; auto. rewrite app_length, IH, F by lia. lia. Qed.

Lemma prefix : forall n r q, r <= q -> n <= r * len -> firstn n (concat (map f (seq 1 r))) = firstn n (concat (map f (seq 1 q))).
Proof.
  intros n r q A B. replace q with (r + (q - r)) by lia. rewrite seq_app, map_app, concat_app, firstn_app, concat_length by lia.
  replace (n - r * len) with 0 by lia. now rewrite firstn_O, app_nil_r.
Qed.
End Prefix.

Lemma firstn_splice_data : forall (l d : list N) p, p <= length l -> firstn (p + length d) (splice l p d) = firstn p l ++ d.
Proof.
  intros l d p L. unfold splice. rewrite firstn_app, firstn_firstn, firstn_length.
  replace (min (p + length d) p) with p by lia. f_equal. replace (p + length d - min p (length l)) with (length d) by lia.
  now rewrite firstn_app, Nat.sub_diag, firstn_all, firstn_O, app_nil_r.
Qed.

Section P.
Variable H : htype -> list N -> list N.
Variable b : build.
Variable fault : nat -> option (list N).
Hypothesis Hlen : forall t d, supported b t = true -> length (H t d) = digest_bytes t.

Notation kdf_rounds := (kdf_rounds H b fault).
Notation expand_rounds := (expand_rounds H b fault).
Notation mac t := (hmac_of (H t) (block_bytes t)).

Lemma mac_length : forall t k x, supported b t = true -> length (mac t k x) = digest_bytes t.
Proof. intros. apply Hlen. auto. Qed.

Definition cleared (memory memory' : list N) : Prop := memory' = memory \/ memory' = zeroes 128.

Lemma cleared_len : forall a c, length a = 128 -> cleared a c -> length c = 128.
Proof. clear. intros a c L [->| ->]; auto using repeat_length. Qed.

Lemma cleared_trans : forall a c d, cleared a c -> cleared c d -> cleared a d.
Proof. clear. intros a c d [->| ->] [->| ->]; unfold cleared; auto. Qed.

Lemma firstn_digest : forall t (z x : list N), length x = digest_bytes t -> firstn (digest_bytes t) (splice z 0 x) = x.
Proof. clear. intros t z x L. rewrite <- L. apply firstn_splice_0. Qed.

(** One HMAC of several pieces, as both functions compute it. *)
Lemma one_mac : forall e memory t key l out e' m r ok e1 m1 e2, active e = None -> length memory = 128 ->
  hmac_init H b fault e memory t (Mem key) = (e1, m1, true) -> updates fault e1 l = (e2, true) ->
  digest_bytes t <= length out -> hmac_finish H b fault e2 m1 out = (e', m, r, ok) ->
  calls e <= calls e' /\ active e' = None /\ m_key m = zeroes 128 /\ supported b t = true /\
  (if ok then r = splice out 0 (mac t key (concat (map bytes l))) else failed fault e e').
Proof.
  intros e memory t key l out e' m r ok e1 m1 e2 A Lm E1 E2 L E3.
  destruct (hmac_init_spec H b fault Hlen _ _ _ _ _ _ _ E1 A Lm) as (C1 & L1 & R1).
  pose proof R1 as (_ & S & _).
  destruct (ready_update H b fault _ _ _ _ _ _ _ _ E2 R1) as (C2 & R2).
  destruct (hmac_finish_spec H b fault Hlen _ _ _ _ _ _ _ _ _ _ E3 R2 L) as (C3 & A3 & K3 & R3).
  split; [lia|]. split; auto. split; auto. split; auto. destruct ok; auto. destruct R3 as (_ & R3). eapply failed_mono; eauto. lia.
Qed.

Section Kdf.
Variables (t : htype) (kdk label : list N) (context : ptr) (n : nat).
Let f (i : nat) : list N := mac t kdk (be32 (N.of_nat i) ++ label ++ [0%N] ++ bytes context ++ be32 (N.of_nat (8 * n))).

Lemma kdf_rounds_spec : forall k e memory i pos out e' memory' out' r,
  kdf_rounds k e memory t (digest_bytes t) kdk (Mem label) context i pos out = (e', memory', out', r) ->
  active e = None -> length memory = 128 -> length out = n -> pos <= n -> n - pos <= k * digest_bytes t -> 0 < i ->
  calls e <= calls e' /\ active e' = None /\ cleared memory memory' /\ length out' = n /\
  match r with
  | Ok => (k <> 0 -> supported b t = true) /\ out' = firstn pos out ++ firstn (n - pos) (concat (map f (seq i k)))
  | Failed => failed fault e e' \/ supported b t = false
  | Undefined => False
  end.
Proof.
  induction k as [|k IH]; intros e memory i pos out e' memory' out' r E A Lm Lo Lp Lk Pi; cbn [Hmac_Model.kdf_rounds] in E.
  - injection E as <- <- <- <-. split; auto. split; auto. split; [left; auto|]. split; auto. split; [lia|].
    replace pos with n by lia. rewrite Nat.sub_diag, firstn_O, app_nil_r, <- Lo. now rewrite firstn_all.
  - destruct (hmac_init H b fault e memory t (Mem kdk)) as [[e1 m1] ok1] eqn:E1.
    destruct (hmac_init_spec H b fault Hlen _ _ _ _ _ _ _ E1 A Lm) as (C1 & L1 & R1). destruct ok1.
    2: { injection E as <- <- <- <-. destruct R1 as (R1 & R2 & R3). split; auto. split; auto. split; [exact R2|]. split; auto.
         destruct R3 as [R3|[R3|R3]]; auto. exfalso. apply R3. exact I. }
    match type of E with context [updates fault e1 ?x] => set (l := x) in *; destruct (updates fault e1 l) as [e2 ok2] eqn:E2 end.
    pose proof R1 as (_ & S & _). pose proof (supported_max b t S) as SM. pose proof (known t (supported_known b t S)) as (_ & _ & D0 & _).
    destruct (ready_update H b fault _ _ _ _ _ _ _ _ E2 R1) as (C2 & R2). destruct ok2.
    2: { unfold hmac_cancel in E. injection E as <- <- <- <-. cbn [cancel calls active m_key]. split; [lia|]. split; auto.
         split; [right; now rewrite L1|]. split; auto. left. destruct R2 as [R2|R2].
         - eapply failed_mono; eauto. cbn; lia.
         - exfalso. apply R2. unfold l. clear. destruct context; repeat constructor. }
    destruct (hmac_finish H b fault e2 m1 (zeroes (max_hash b))) as [[[e3 m3] d] ok3] eqn:E3.
    destruct (one_mac _ _ _ _ _ _ _ _ _ _ _ _ _ A Lm E1 E2 ltac:(unfold zeroes; rewrite repeat_length; exact SM) E3) as (C3 & A3 & K3 & _ & R3).
    assert (X: concat (map bytes l) = be32 (N.of_nat i) ++ label ++ [0%N] ++ bytes context ++ be32 (N.of_nat (8 * n))).
    { unfold l. rewrite Lo, (Nat.mul_comm n 8). clear. destruct context; cbn [map app concat bytes]; now rewrite ?app_nil_r. }
    rewrite X in R3. fold (f i) in R3. destruct ok3.
    2: { injection E as <- <- <- <-. split; auto. split; auto. split; [right; auto|]. split; auto. }
    assert (Lf: length (f i) = digest_bytes t) by (apply mac_length; auto).
    set (c := min (digest_bytes t) (length out - pos)) in *.
    assert (Fc: firstn c d = firstn c (f i)).
    { rewrite R3. unfold splice. cbn [firstn app]. rewrite firstn_app. replace (c - length (f i)) with 0 by lia.
      now rewrite firstn_O, app_nil_r. }
    rewrite Fc in E.
    assert (Lc: length (firstn c (f i)) = c) by (rewrite firstn_length; lia).
    assert (Ls: length (splice out pos (firstn c (f i))) = n).
    { unfold splice. rewrite !app_length, firstn_length, skipn_length, Lc. lia. }
    specialize (IH _ _ _ _ _ _ _ _ _ E A3 ltac:(rewrite K3; apply repeat_length) Ls ltac:(lia)).
    destruct IH as (C4 & A4 & M4 & L4 & R4); [|lia|].
    { unfold c. clear - Lk Lo D0. cbn in Lk. lia. }
    split; [lia|]. split; auto. split; [eapply cleared_trans; [|exact M4]; right; auto|]. split; auto.
    destruct r; auto.
    + destruct R4 as (_ & ->). split; auto.
      pose proof (firstn_splice_data out (firstn c (f i)) pos ltac:(lia)) as FS. rewrite Lc in FS. rewrite FS, <- app_assoc. f_equal.
      cbn [seq map concat]. rewrite firstn_app, Lf. f_equal.
      * destruct (Nat.le_gt_cases (digest_bytes t) (n - pos)).
        -- rewrite !firstn_all2; auto; lia.
        -- f_equal. lia.
      * f_equal. lia.
    + destruct R4 as [R4|R4]; auto. left. eapply failed_mono; eauto.
Qed.

Lemma kdf_of_rounds : supported b t = true ->
  firstn n (concat (map f (seq 1 (rounds n (digest_bytes t))))) = counter_kdf (H t) (block_bytes t) kdk label (bytes context) n.
Proof.
  intros S. pose proof (known t (supported_known b t S)) as (_ & _ & D0 & _).
  destruct (rounds_bounds n (digest_bytes t) ltac:(lia)) as (B1 & B2 & _).
  rewrite (prefix f (digest_bytes t) (fun i _ => mac_length t _ _ S) n _ n) by lia.
  unfold counter_kdf. f_equal. f_equal. apply map_ext. intros i. unfold f. now rewrite !be32_int32.
Qed.
End Kdf.

Section Hkdf.
Variables (ty : htype) (prk : list N) (info : ptr) (n : nat).
Let len := digest_bytes ty.
Let T := hkdf_t (H ty) (block_bytes ty) prk (bytes info).
Hypothesis S : supported b ty = true.

Lemma T_length : forall i, 0 < i -> length (T i) = len.
Proof. intros [|i] P; [lia|]. apply mac_length. auto. Qed.

Lemma expand_rounds_spec : forall k e memory i out e' memory' out' r, 0 < i -> i - 1 + k <= 255 -> n = i - 1 + k ->
  expand_rounds k e memory ty len n prk info i (T (i - 1)) ((i - 1) * len) out = (e', memory', out', r) ->
  active e = None -> length memory = 128 ->
  (k = 0 /\ length out <= (i - 1) * len \/ (k - 1) * len < length out - (i - 1) * len <= k * len) ->
  calls e <= calls e' /\ active e' = None /\ cleared memory memory' /\ length out' = length out /\
  match r with
  | Ok => out' = firstn ((i - 1) * len) out ++ firstn (length out - (i - 1) * len) (concat (map T (seq i k)))
  | Failed => failed fault e e'
  | Undefined => False
  end.
Proof.
  pose proof (known ty (supported_known b ty S)) as (_ & _ & D0 & _). fold len in D0.
  pose proof (supported_max b ty S) as SM. fold len in SM.
  induction k as [|k IH]; intros e memory i out e' memory' out' r Pi Li Ni E A Lm Lk; cbn [Hmac_Model.expand_rounds] in E.
  - injection E as <- <- <- <-. split; auto. split; auto. split; [left; auto|]. split; auto.
    destruct Lk as [(_ & Lk)|Lk]; [|lia]. cbn [seq map concat]. rewrite firstn_nil, app_nil_r. symmetry. apply firstn_all2. lia.
  - destruct Lk as [(Lk & _)|Lk]; [lia|]. replace (Datatypes.S k - 1) with k in Lk by lia.
    destruct (hmac_init H b fault e memory ty (Mem prk)) as [[e1 m1] ok1] eqn:E1.
    destruct (hmac_init_spec H b fault Hlen _ _ _ _ _ _ _ E1 A Lm) as (C1 & L1 & R1). destruct ok1.
    2: { injection E as <- <- <- <-. destruct R1 as (R1 & R2 & R3). split; auto. split; auto. split; [exact R2|]. split; auto.
         destruct R3 as [R3|[R3|R3]]; auto; [congruence|]. exfalso. apply R3. exact I. }
    match type of E with context [updates fault e1 ?x] => set (l := x) in *; destruct (updates fault e1 l) as [e2 ok2] eqn:E2 end.
    destruct (ready_update H b fault _ _ _ _ _ _ _ _ E2 R1) as (C2 & R2). destruct ok2.
    2: { unfold hmac_cancel in E. injection E as <- <- <- <-. cbn [cancel calls active m_key]. split; [lia|]. split; auto.
         split; [right; now rewrite L1|]. split; auto. destruct R2 as [R2|R2].
         - eapply failed_mono; eauto. cbn; lia.
         - exfalso. apply R2. unfold l. clear. destruct (T (i - 1)), info; repeat constructor. }
    match type of E with context [hmac_finish H b fault e2 m1 ?x] => set (z := x) in *;
      destruct (hmac_finish H b fault e2 m1 z) as [[[e3 m3] d] ok3] eqn:E3 end.
    assert (Lz: digest_bytes ty <= length z).
    { unfold z, zeroes. rewrite app_length, skipn_length, repeat_length. fold len. lia. }
    destruct (one_mac _ _ _ _ _ _ _ _ _ _ _ _ _ A Lm E1 E2 Lz E3) as (C3 & A3 & K3 & _ & R3).
    assert (X: mac ty prk (concat (map bytes l)) = T i).
    { replace i with (Datatypes.S (i - 1)) at 1 by lia. unfold T at 1. cbn [hkdf_t]. fold T. f_equal.
      unfold l. replace (Datatypes.S (i - 1)) with i by lia.
      assert (N: N.land (N.of_nat i) 255 = N.of_nat i).
      { change 255%N with (N.ones 8). rewrite N.land_ones. apply N.mod_small. cbn. lia. }
      rewrite N. clear. destruct (T (i - 1)) eqn:Q, info; cbn [map app concat bytes]; now rewrite ?app_nil_r. }
    rewrite X in R3. destruct ok3.
    2: { injection E as <- <- <- <-. split; auto. split; auto. split; [right; auto|]. split; auto. }
    assert (Lf: length (T i) = len) by (apply T_length; lia).
    assert (Fd: firstn len d = T i) by (rewrite R3, <- Lf; apply firstn_splice_0).
    rewrite Fd in E. set (c := if i =? n then length out - (i - 1) * len else len) in *.
    assert (Hc: c = min len (length out - (i - 1) * len)).
    { unfold c. destruct (i =? n) eqn:Q.
      - assert (k = 0) as -> by lia. lia.
      - destruct k as [|k']; [lia|]. cbn in Lk. lia. }
    assert (Fc: firstn c d = firstn c (T i)).
    { rewrite R3. unfold splice. cbn [firstn app]. rewrite firstn_app. replace (c - length (T i)) with 0 by lia.
      now rewrite firstn_O, app_nil_r. }
    rewrite Fc in E.
    assert (Lc: length (firstn c (T i)) = c) by (rewrite firstn_length; lia).
    assert (Ls: length (splice out ((i - 1) * len) (firstn c (T i))) = length out).
    { unfold splice. rewrite !app_length, firstn_length, skipn_length, Lc. lia. }
    assert (P2: (i - 1) * len + len = (Datatypes.S i - 1) * len).
    { replace (Datatypes.S i - 1) with (Datatypes.S (i - 1)) by lia. cbn. lia. }
    rewrite P2 in E. replace (T i) with (T (Datatypes.S i - 1)) in E at 1 by (f_equal; lia).
    specialize (IH _ _ (Datatypes.S i) _ _ _ _ _ ltac:(lia) ltac:(lia) ltac:(lia) E A3 ltac:(rewrite K3; apply repeat_length)).
    rewrite Ls, <- P2 in IH. destruct IH as (C4 & A4 & M4 & L4 & R4).
    { destruct k as [|k']; [left; split; auto; cbn in Lk; lia|right].
      replace (Datatypes.S k' - 1) with k' by lia. cbn in Lk |- *. lia. }
    split; [lia|]. split; auto. split; [eapply cleared_trans; [|exact M4]; right; auto|]. split; auto.
    destruct r; auto.
    + rewrite R4. cbn [seq map concat]. rewrite firstn_app, Lf, app_assoc.
      destruct (Nat.le_gt_cases len (length out - (i - 1) * len)) as [G|G].
      * assert (c = len) as Ec by lia. rewrite Ec in *.
        pose proof (firstn_splice_data out (firstn len (T i)) ((i - 1) * len) ltac:(lia)) as FS. rewrite Lc in FS. rewrite FS.
        f_equal; [|f_equal; lia]. f_equal. rewrite !firstn_all2; auto; lia.
      * replace (length out - ((i - 1) * len + len)) with 0 by lia. replace (length out - (i - 1) * len - len) with 0 by lia.
        rewrite !firstn_O, !app_nil_r. rewrite firstn_all2 by lia.
        pose proof (firstn_splice_data out (firstn c (T i)) ((i - 1) * len) ltac:(lia)) as FS. rewrite Lc in FS.
        assert (c = length out - (i - 1) * len) as Ec by lia. rewrite <- Ec, <- FS. symmetry. apply firstn_all2. lia.
    + eapply failed_mono; eauto.
Qed.
End Hkdf.

Lemma hkdf_of_rounds : forall ty prk info n, supported b ty = true ->
  firstn n (concat (map (hkdf_t (H ty) (block_bytes ty) prk info) (seq 1 (rounds n (digest_bytes ty)))))
  = hkdf_of (H ty) (block_bytes ty) prk info n.
Proof.
  intros ty prk info n S. pose proof (known ty (supported_known b ty S)) as (_ & _ & D0 & _).
  destruct (rounds_bounds n (digest_bytes ty) ltac:(lia)) as (B1 & B2 & _).
  unfold hkdf_of. rewrite (prefix _ (digest_bytes ty)) with (q := n); auto.
  intros i P. exact (T_length ty prk (Mem info) S i P).
Qed.

Lemma hkdf_expand_spec : forall e memory ty prk info out e' memory' out' r,
  hkdf_expand H b fault e memory ty prk info out = (e', memory', out', r) ->
  active e = None -> length memory = 128 -> supported b ty = true ->
  calls e <= calls e' /\ active e' = None /\ cleared memory memory' /\ length out' = length out /\
  match r with
  | Ok => digest_bytes ty <= length prk /\ length out <= 255 * digest_bytes ty /\
          out' = hkdf_of (H ty) (block_bytes ty) prk (bytes info) (length out)
  | Failed => failed fault e e' \/ length prk < digest_bytes ty \/ 255 * digest_bytes ty < length out
  | Undefined => False
  end.
Proof.
  intros e memory ty prk info out e' memory' out' r E A Lm S. unfold hkdf_expand in E.
  pose proof (known ty (supported_known b ty S)) as (HL & _ & D0 & _). rewrite HL in E.
  destruct (rounds_bounds (length out) (digest_bytes ty) ltac:(lia)) as (B1 & B2 & B3).
  destruct (length prk <? digest_bytes ty) eqn:Q1.
  { injection E as <- <- <- <-. split; auto. split; auto. split; [left; auto|]. split; auto. right. left. lia. }
  destruct (255 <? rounds (length out) (digest_bytes ty)) eqn:Q2.
  { injection E as <- <- <- <-. split; auto. split; auto. split; [left; auto|]. split; auto. right. right.
    assert (G: 255 * digest_bytes ty <= (rounds (length out) (digest_bytes ty) - 1) * digest_bytes ty) by (apply Nat.mul_le_mono_r; lia). lia. }
  pose proof (supported_max b ty S) as SM. destruct (max_hash b <? digest_bytes ty) eqn:Q3; [lia|].
  pose proof (expand_rounds_spec ty prk info (rounds (length out) (digest_bytes ty)) S (rounds (length out) (digest_bytes ty))
    e memory 1 out e' memory' out' r ltac:(lia) ltac:(lia) ltac:(lia)) as X.
  replace ((1 - 1) * digest_bytes ty) with 0 in X by lia. specialize (X E A Lm).
  destruct X as (C & A' & M & L & R).
  { destruct (length out) eqn:Z; [left|right].
    - split; auto. unfold rounds. rewrite Nat.div_0_l, Nat.mod_0_l by lia. reflexivity.
    - rewrite Nat.sub_0_r. split; [apply B3; lia|exact B1]. }
  split; auto. split; auto. split; auto. split; auto. destruct r; auto.
  split; [lia|]. split.
  - assert (G: rounds (length out) (digest_bytes ty) * digest_bytes ty <= 255 * digest_bytes ty) by (apply Nat.mul_le_mono_r; lia). lia.
  - rewrite R. cbn [firstn app]. rewrite Nat.sub_0_r. apply hkdf_of_rounds. auto.
Qed.

Lemma kdf_spec : forall e memory t kdk label context out e' memory' out' r,
  kdf H b fault e memory t kdk label context out = (e', memory', out', r) ->
  active e = None -> length memory = 128 -> out <> [] ->
  calls e <= calls e' /\ active e' = None /\ cleared memory memory' /\ length out' = length out /\
  match r with
  | Ok => supported b t = true /\ data_ptr_ok label /\ out' = counter_kdf (H t) (block_bytes t) kdk (bytes label) (bytes context) (length out)
  | Failed => failed fault e e' \/ supported b t = false \/ ~ data_ptr_ok label
  | Undefined => False
  end.
Proof.
  intros e memory t kdk label context out e' memory' out' r E A Lm NE. unfold kdf in E.
  destruct label as [n|label].
  { injection E as <- <- <- <-. split; auto. split; auto. split; [left; auto|]. split; auto. }
  assert (TT: t = Other \/ t <> Other) by (destruct t; auto; right; discriminate).
  destruct TT as [->|K].
  { injection E as <- <- <- <-. split; auto. split; auto. split; [left; auto|]. split; auto. }
  destruct (known t K) as (HL & _ & D0 & _). rewrite HL in E.
  destruct (rounds_bounds (length out) (digest_bytes t) ltac:(lia)) as (B1 & B2 & B3).
  assert (0 < length out) by (destruct out; [congruence|cbn; lia]).
  destruct (length out =? 0) eqn:Z; [lia|].
  destruct (kdf_rounds_spec t kdk label context (length out) _ _ _ _ _ _ _ _ _ _ E A Lm ltac:(apply repeat_length) ltac:(lia) ltac:(lia) ltac:(lia))
    as (C & A' & M & L & R).
  split; auto. split; auto. split; auto. split; auto. destruct r; auto.
  - destruct R as (S & ->). assert (SS: supported b t = true) by (apply S; intros Q; rewrite Q in B1; lia).
    split; auto. split; [exact I|]. cbn [firstn app]. rewrite Nat.sub_0_r. now apply kdf_of_rounds.
  - destruct R; auto.
Qed.

(** ** HKDF over histories *)
Definition inv (memory : list N) (s : hkdf) (prk : option (htype * list N)) : Prop :=
  active (k_engine s) = None /\ cleared memory (k_memory s) /\ length (k_prk s) = max_hash b /\
  match prk with
  | None => k_type s = Other /\ k_prk s = zeroes (max_hash b)
  | Some (t, k) => k_type s = t /\ supported b t = true /\ firstn (digest_bytes t) (k_prk s) = k
  end.

Lemma step_inv : forall memory s prk o s' r, length memory = 128 -> inv memory s prk -> step H b fault s o = (s', r) ->
  answer_ok H prk o r /\ inv memory s' (next_prk H prk o r).
Proof.
  intros memory s prk o s' r Lm (IA & IM & IL & IP) E. pose proof (cleared_len _ _ Lm IM) as LM.
  assert (EX: forall info out s1 a, expand H b fault s info out = (s1, a) ->
    inv memory s1 prk /\ k_type s1 = k_type s /\ k_prk s1 = k_prk s /\
    match a with
    | Key k => length k = length out /\
        match prk with Some (t, p) => k = hkdf_of (H t) (block_bytes t) p (bytes info) (length out) | None => False end
    | Error => prk <> None
    | Refused => prk = None
    | _ => False
    end).
  { intros info out s1 a X. unfold expand in X. destruct prk as [[t p]|].
    - destruct IP as (T & S & P). rewrite T in X. pose proof (known t (supported_known b t S)) as (HL & _ & D0 & _). rewrite HL in X.
      rewrite P in X.
      destruct (hkdf_expand H b fault (k_engine s) (k_memory s) t p info out) as [[[e1 m1] o1] r1] eqn:E1.
      destruct (hkdf_expand_spec _ _ _ _ _ _ _ _ _ _ E1 IA LM S) as (C & A' & M & L & R). injection X as <- <-.
      cbn [k_type k_prk]. split; [|split; [auto|split; auto]].
      + unfold inv. cbn [k_engine k_memory k_prk k_type]. split; auto. split; [eapply cleared_trans; eauto|]. auto.
      + destruct r1; [|discriminate|auto]. split; auto. apply R.
    - destruct IP as (T & P). rewrite T in X. injection X as <- <-.
      split; [unfold inv; auto|]. split; auto. }
  destruct o as [t ikm salt|info out|info junk|]; cbn [step] in E.
  - unfold extract in E.
    destruct (match ikm with Null _ | Mem [] => true | _ => false end) eqn:Q.
    { assert (X: (s, Refused) = (s', r)) by (destruct ikm as [|[|]]; [exact E|exact E|discriminate]). injection X as <- <-.
      cbn [answer_ok next_prk]. split; [destruct ikm as [|[|]]; auto; discriminate|unfold inv; auto]. }
    destruct ikm as [|[|x ikm]]; try discriminate.
    destruct (generate_hmac H b fault (k_engine s) (k_memory s) t salt (Mem (x :: ikm)) (zeroes (max_hash b))) as [[[e1 m1] o1] ok1] eqn:E1.
    destruct (generate_hmac_spec H b fault Hlen _ _ _ _ _ _ _ _ _ _ E1 IA LM) as (A1 & C1 & L1 & K1 & R1). destruct ok1.
    + injection E as <- <-. cbn [answer_ok next_prk]. split; auto. destruct R1 as (S & G & KP & DP & _ & ->).
      unfold inv. cbn [k_engine k_memory k_prk k_type]. split; auto. split; [eapply cleared_trans; [exact IM|exact K1]|]. split.
      * rewrite length_splice_0; unfold zeroes; rewrite repeat_length; auto. rewrite mac_length by auto. now apply supported_max.
      * split; auto. split; auto. apply firstn_digest. now apply mac_length.
    + injection E as <- <-. cbn [answer_ok next_prk]. split; auto.
      unfold inv. cbn [k_engine k_memory k_prk k_type]. split; auto. split; [eapply cleared_trans; [exact IM|exact K1]|].
      split; [apply repeat_length|]. auto.
  - destruct (EX _ _ _ _ E) as (I' & _ & _ & R). destruct r; cbn [answer_ok next_prk]; try contradiction; auto. destruct R; auto.
  - unfold update_prk in E. set (o1 := firstn (max_hash b) (junk ++ zeroes (max_hash b))) in *.
    assert (Lo: length o1 = max_hash b) by (unfold o1, zeroes; rewrite firstn_length, app_length, repeat_length; lia).
    destruct (expand H b fault s info o1) as [s1 a] eqn:E1. destruct (EX _ _ _ _ E1) as (I' & T' & P' & R).
    destruct a; try contradiction.
    + destruct R as (Lk & R). destruct prk as [[t p]|]; [|contradiction]. destruct IP as (T & S & P). rewrite T', T in E.
      pose proof (known t (supported_known b t S)) as (HL & _ & D0 & _). rewrite HL in E. injection E as <- <-.
      pose proof (supported_max b t S) as SM.
      cbn [answer_ok next_prk]. split; [discriminate|]. destruct I' as (J1 & J2 & J3 & J4).
      assert (Lf: length (firstn (digest_bytes t) k) = digest_bytes t) by (rewrite firstn_length; lia).
      unfold inv. cbn [k_engine k_memory k_prk k_type]. split; auto. split; auto. split.
      * rewrite length_splice_0; lia.
      * split; auto. split; auto. rewrite firstn_digest by auto. rewrite R, Lo. unfold hkdf_of.
        rewrite firstn_firstn. replace (min (digest_bytes t) (max_hash b)) with (digest_bytes t) by lia.
        symmetry. apply (prefix _ (digest_bytes t)); auto.
        -- intros i Pi. exact (T_length t p (Mem (bytes info)) S i Pi).
        -- destruct (digest_bytes t) as [|m]; lia.
    + injection E as <- <-. cbn [answer_ok next_prk]. auto.
    + injection E as <- <-. cbn [answer_ok next_prk]. auto.
  - injection E as <- <-. cbn [answer_ok next_prk]. split; auto. unfold inv, reset. cbn [k_engine k_memory k_prk k_type].
    split; auto. split; auto. split; [apply repeat_length|]. auto.
Qed.

Lemma run_inv : forall memory l s prk s' r, length memory = 128 -> inv memory s prk -> run H b fault s l = (s', r) ->
  answers_ok H prk l r /\ exists prk', inv memory s' prk'.
Proof.
  intros memory. induction l as [|o l IH]; intros s prk s' r Lm I' E; cbn [run] in E.
  - injection E as <- <-. split; [exact I|]. eauto.
  - destruct (step H b fault s o) as [s1 a] eqn:E1. destruct (run H b fault s1 l) as [s2 q] eqn:E2. injection E as <- <-.
    destruct (step_inv _ _ _ _ _ _ Lm I' E1) as (X & Y). destruct (IH _ _ _ _ Lm Y E2) as (Z & W). cbn. auto.
Qed.
End P.
