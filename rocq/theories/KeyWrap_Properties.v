(** C12 and C13: AES key wrap. *)
From Coq Require Import List NArith Lia Bool Arith ZifyBool ZifyNat ZifyN.
From Verif Require Import Base ByteMath_Model BufferUtil_Model KeyWrap_Model KeyWrap_Spec
  FlashStore_Layout_Proofs KeyWrap_Proofs KeyWrap_Top_Proofs.
Import ListNotations.
Local Open Scope nat_scope.

(** ** C12 *)

(** Wrapping produces exactly the RFC 3394 output C[0] C[1] .. C[n] for the default initial value, leaves the rest of the
    output buffer alone, and, when the engine fails, leaves nothing but zeros. *)
Theorem C12_wrap_is_rfc3394 : forall enc dec data out, block_cipher enc dec ->
  bytes_ok data -> length data mod 8 = 0 -> 16 <= length data -> length data + 8 <= length out ->
  (N.of_nat (length data) < 2 ^ 32)%N ->
  kw_wrap enc data out =
  match rfc_wrap enc (repeat 0xA6%N 8) data with
  | Some (c0, c) => (KwOk, c0 ++ c ++ skipn (length data + 8) out)
  | None => (KwEngine, zeros (length out))
  end.
Proof. intros enc dec data out BC. exact (kw_wrap_spec enc dec BC data out). Qed.
Print Assumptions C12_wrap_is_rfc3394.

(** Unwrapping runs the RFC 3394 inverse, reports success exactly when the recovered initial value is the default one,
    and otherwise leaves nothing but zeros in the caller's buffer. *)
Theorem C12_unwrap_is_rfc3394 : forall enc dec c0 c d, block_cipher enc dec ->
  length c0 = 8 -> bytes_ok c0 -> bytes_ok c -> length c mod 8 = 0 -> 16 <= length c -> length c <= length d ->
  (N.of_nat (length c) < 2 ^ 32)%N ->
  match rfc_unwrap dec c0 c with
  | None => kw_unwrap dec (c0 ++ c) d = (KwEngine, zeros (length d), length d)
  | Some (a, p) =>
    (a = repeat 0xA6%N 8 -> kw_unwrap dec (c0 ++ c) d = (KwOk, p ++ skipn (length c) d, length c)) /\
    (a <> repeat 0xA6%N 8 -> kw_unwrap dec (c0 ++ c) d = (KwIntegrity, zeros (length d), length d))
  end.
Proof.
  intros enc dec c0 c d BC H1 H2 H3 H4 H5 H6 H7. rewrite (kw_unwrap_spec enc dec BC) by auto.
  destruct (rfc_unwrap dec c0 c) as [[a p]|]; auto. change (repeat 166%N 8) with KW_IV.
  destruct (list_eq_dec N.eq_dec a KW_IV); split; intros; congruence.
Qed.
Print Assumptions C12_unwrap_is_rfc3394.

(** What was wrapped unwraps to the same data. *)
Theorem C12_round_trip : forall enc dec data out w d, block_cipher enc dec ->
  bytes_ok data -> (N.of_nat (length data) < 2 ^ 32)%N -> length data <= length d ->
  kw_wrap enc data out = (KwOk, w) ->
  kw_unwrap dec (firstn (length data + 8) w) d = (KwOk, data ++ skipn (length data) d, length data).
Proof.
  intros enc dec data out w d BC H1 H2 H3 H.
  assert (A: length data mod 8 = 0 /\ 16 <= length data /\ length data + 8 <= length out).
  { unfold kw_wrap, BLOCK in H. destruct (Nat.eqb_spec (length data mod 8) 0); [|discriminate]. cbn [negb] in H.
    destruct (Nat.ltb_spec (length data) (8 * 2)); [discriminate|].
    destruct (Nat.ltb_spec (length out) (length data + 8)); [discriminate|]. lia. }
  destruct A as (A1 & A2 & A3). rewrite (kw_wrap_spec enc dec BC) in H by auto.
  destruct (rfc_wrap enc KW_IV data) as [[c0 c]|] eqn:E; [|discriminate]. injection H as <-.
  destruct (rfc_wrap_inv enc dec BC KW_IV data c0 c eq_refl bytes_ok_KW_IV H1 A1 E) as (W1 & W2 & W3 & W4 & W5).
  rewrite app_assoc. destruct (app_split (c0 ++ c) (skipn (length data + 8) out) (length data + 8)) as (F & _).
  { rewrite app_length. lia. }
  rewrite F. rewrite (kw_unwrap_spec enc dec BC) by (auto; lia). rewrite W5, W3.
  destruct (list_eq_dec N.eq_dec KW_IV KW_IV); congruence.
Qed.
Print Assumptions C12_round_trip.

(** Anything that unwraps is the wrapping of what is returned: a buffer that no wrapping with this key produced is
    rejected. *)
Theorem C12_only_wrapped_data_unwraps : forall enc dec w d d' n, block_cipher enc dec ->
  bytes_ok w -> (N.of_nat (length w) < 2 ^ 32)%N -> kw_unwrap dec w d = (KwOk, d', n) ->
  n + 8 = length w /\ length d' = length d /\ skipn n d' = skipn n d /\
  forall out, length out = length w -> kw_wrap enc (firstn n d') out = (KwOk, w).
Proof.
  intros enc dec w d d' n BC H1 H2 H.
  assert (A: length w mod 8 = 0 /\ 24 <= length w /\ length w - 8 <= length d).
  { unfold kw_unwrap, BLOCK in H. destruct (Nat.eqb_spec (length w mod 8) 0); [|discriminate]. cbn [negb] in H.
    destruct (Nat.ltb_spec (length w) (8 * 3)); [discriminate|].
    destruct (Nat.ltb_spec (length d) (length w - 8)); [discriminate|]. lia. }
  destruct A as (A1 & A2 & A3).
  assert (L1: length (firstn 8 w) = 8) by (rewrite firstn_length; lia).
  assert (L2: length (skipn 8 w) = length w - 8) by (rewrite skipn_length; lia).
  assert (M: length (skipn 8 w) mod 8 = 0).
  { rewrite L2. pose proof (Nat.div_mod (length w) 8 ltac:(lia)). apply Nat.mod_divide; [lia|]. exists (length w / 8 - 1). lia. }
  rewrite <- (firstn_skipn 8 w) in H.
  rewrite (kw_unwrap_spec enc dec BC) in H by (auto using bytes_ok_firstn, bytes_ok_skipn; lia).
  destruct (rfc_unwrap dec (firstn 8 w) (skipn 8 w)) as [[a p]|] eqn:E; [|discriminate].
  destruct (list_eq_dec N.eq_dec a KW_IV) as [->|]; [|discriminate].
  assert (D1: d' = p ++ skipn (length (skipn 8 w)) d) by congruence. assert (D2: n = length (skipn 8 w)) by congruence. clear H.
  destruct (rfc_unwrap_inv enc dec BC _ _ _ _ L1 (bytes_ok_firstn 8 w H1) (bytes_ok_skipn 8 w H1) M E) as (_ & _ & P1 & P2 & P3).
  rewrite <- P1 in D1, D2. subst n d'. destruct (app_split p (skipn (length p) d) _ eq_refl) as (F1 & F2).
  splits; auto; try lia.
  - rewrite app_length, skipn_length. lia.
  - intros out HO. rewrite F1. rewrite (kw_wrap_spec enc dec BC) by (auto; try rewrite P1; auto; try lia). rewrite P3.
    rewrite (skipn_all2 out) by lia. rewrite app_nil_r, firstn_skipn. reflexivity.
Qed.
Print Assumptions C12_only_wrapped_data_unwraps.

(** Bad arguments are refused before anything is written; every other failure of an unwrapping leaves only zeros. *)
Theorem C12_failed_unwrap : forall dec w d st d' n, kw_unwrap dec w d = (st, d', n) -> st <> KwOk ->
  n = length d /\
  ((d' = d /\ (length w mod 8 <> 0 /\ st = KwNotAligned \/
               length w mod 8 = 0 /\ length w < 24 /\ st = KwNotEnough \/
               length w mod 8 = 0 /\ 24 <= length w /\ length d < length w - 8 /\ st = KwSmallBuffer)) \/
   (d' = zeros (length d) /\ (st = KwEngine \/ st = KwIntegrity))).
Proof.
  intros dec w d st d' n H NE. unfold kw_unwrap, BLOCK in H.
  destruct (Nat.eqb_spec (length w mod 8) 0); cbn [negb] in H; [|injection H as <- <- <-; tauto].
  destruct (Nat.ltb_spec (length w) (8 * 3)) as [L|L]; [injection H as <- <- <-; split; [auto|left; intuition lia]|].
  destruct (Nat.ltb_spec (length d) (length w - 8)) as [L2|L2]; [injection H as <- <- <-; split; [auto|left; split; auto; right; right; intuition lia]|].
  destruct (data_unwrap dec w d) as [[a q]|]; [|injection H as <- <- <-; split; [auto|right; auto]].
  destruct (buffer_compare _ _ _ _); [congruence|injection H as <- <- <-; split; [auto|right; auto]].
Qed.
Print Assumptions C12_failed_unwrap.

Theorem C12_failed_wrap : forall enc data out st out', kw_wrap enc data out = (st, out') -> st <> KwOk ->
  (out' = out /\ (length data mod 8 <> 0 /\ st = KwNotAligned \/
                  length data mod 8 = 0 /\ length data < 16 /\ st = KwNotEnough \/
                  length data mod 8 = 0 /\ 16 <= length data /\ length out < length data + 8 /\ st = KwSmallBuffer)) \/
  (out' = zeros (length out) /\ st = KwEngine).
Proof.
  intros enc data out st out' H NE. unfold kw_wrap, BLOCK in H.
  destruct (Nat.eqb_spec (length data mod 8) 0); cbn [negb] in H; [|injection H as <- <-; tauto].
  destruct (Nat.ltb_spec (length data) (8 * 2)) as [L|L]; [injection H as <- <-; left; intuition lia|].
  destruct (Nat.ltb_spec (length out) (length data + 8)) as [L2|L2]; [injection H as <- <-; left; split; auto; right; right; intuition lia|].
  cbn zeta in H. destruct (data_wrap enc KW_IV _ _); [congruence|injection H as <- <-; right; auto].
Qed.
Print Assumptions C12_failed_wrap.

(** ** C13 *)

(** Wrapping with padding produces exactly the RFC 5649 output for every length from 1 byte. *)
Theorem C13_wrap_is_rfc5649 : forall enc dec data out, block_cipher enc dec ->
  bytes_ok data -> data <> [] -> (N.of_nat (length data) <= 0xfffffff8)%N ->
  length (padded data) + 8 <= length out ->
  kwp_wrap enc data out =
  match rfc5649_wrap enc data with
  | Some c => (KwOk, c ++ skipn (length (padded data) + 8) out)
  | None => (KwEngine, zeros (length out))
  end.
Proof. intros enc dec data out BC. exact (kwp_wrap_spec enc dec BC data out). Qed.
Print Assumptions C13_wrap_is_rfc5649.

(** Unwrapping succeeds exactly on the RFC 5649 wrappings of some data, and then returns that data (followed by its zero
    padding) and its exact length. *)
Theorem C13_unwrap_iff_rfc5649 : forall enc dec w d d' n, block_cipher enc dec ->
  bytes_ok w -> length w mod 8 = 0 -> 16 <= length w -> length w - 8 <= length d -> (N.of_nat (length w) < 2 ^ 32)%N ->
  (kwp_unwrap dec w d = (KwOk, d', n) <->
   exists p, p <> [] /\ bytes_ok p /\ length (padded p) = length w - 8 /\ rfc5649_wrap enc p = Some w /\
     n = length p /\ d' = padded p ++ skipn (length w - 8) d).
Proof. intros enc dec w d d' n BC. exact (kwp_unwrap_spec enc dec BC w d d' n). Qed.
Print Assumptions C13_unwrap_iff_rfc5649.

Theorem C13_round_trip : forall enc dec data out w d, block_cipher enc dec ->
  bytes_ok data -> (N.of_nat (length (padded data)) + 8 < 2 ^ 32)%N -> length (padded data) <= length d ->
  kwp_wrap enc data out = (KwOk, w) ->
  kwp_unwrap dec (firstn (length (padded data) + 8) w) d =
    (KwOk, padded data ++ skipn (length (padded data)) d, length data) /\
  firstn (length data) (padded data) = data.
Proof.
  intros enc dec data out w d BC H1 H2 H3 H. split; [|apply app_split; auto].
  pose proof (length_padded data) as LP. destruct (aligned_bounds (length data)) as (AB & AM).
  assert (A: data <> [] /\ length (padded data) + 8 <= length out).
  { unfold kwp_wrap in H. destruct (Nat.eqb_spec (length data) 0); [discriminate|]. split; [destruct data; cbn in *; congruence|].
    destruct (N.ltb _ _); [discriminate|].
    destruct (Nat.ltb_spec (length out) (aligned (length data) + BLOCK)); [discriminate|]. unfold BLOCK in *. lia. }
  destruct A as (A1 & A2). rewrite (kwp_wrap_spec enc dec BC) in H by (auto; lia).
  destruct (rfc5649_wrap enc data) as [c|] eqn:E; [|discriminate]. injection H as <-.
  change (rfc5649_wrap enc data) with (raw_wrap enc (alternative_iv data) (padded data)) in E.
  destruct (alternative_iv_ok data) as (I1 & I2).
  assert (L0: 1 <= length data) by (destruct data; [congruence|cbn; lia]).
  pose proof (Nat.div_mod (aligned (length data)) 8 ltac:(lia)) as DM.
  destruct (raw_wrap_inv enc dec BC _ _ _ I1 I2 (bytes_ok_padded data H1) ltac:(rewrite LP; auto) ltac:(lia) E) as (W1 & W2 & _).
  destruct (app_split c (skipn (length (padded data) + 8) out) (length (padded data) + 8)) as (F & _); [lia|]. rewrite F.
  assert (M: length c mod 8 = 0).
  { rewrite W1, LP. apply Nat.mod_divide; [lia|]. exists (1 + aligned (length data) / 8). lia. }
  apply (kwp_unwrap_spec enc dec BC); auto; try lia. exists data. splits; auto; try lia.
  rewrite W1. now replace (8 + length (padded data) - 8) with (length (padded data)) by lia.
Qed.
Print Assumptions C13_round_trip.

(** Every failure other than a refused argument zeroes the whole output buffer; the length reported is unchanged. *)
Theorem C13_failed_unwrap : forall dec w d st d' n, kwp_unwrap dec w d = (st, d', n) -> st <> KwOk ->
  n = length d /\
  ((d' = d /\ (st = KwNotAligned \/ st = KwNotEnough \/ st = KwSmallBuffer) /\
    (length w mod 8 <> 0 \/ length w < 16 \/ length d < length w - 8)) \/
   (d' = zeros (length d) /\ (st = KwEngine \/ st = KwIntegrity \/ st = KwLength \/ st = KwPadding))).
Proof. exact kwp_unwrap_failure. Qed.
Print Assumptions C13_failed_unwrap.

(** ** A concrete cipher *)
Definition toy (b : list N) : option (list N) :=
  if length b =? 16 then Some (xor_bytes (rev b) (map N.of_nat (seq 1 16))) else None.
Definition untoy (b : list N) : option (list N) :=
  if length b =? 16 then Some (rev (xor_bytes b (map N.of_nat (seq 1 16)))) else None.

Example C12_example_cipher : block_cipher toy untoy.
Proof.
  assert (B: bytes_ok (map N.of_nat (seq 1 16))) by (repeat constructor).
  assert (R: forall l, bytes_ok l -> bytes_ok (rev l)) by (intros; now apply Forall_rev).
  constructor; intros x y L H E; unfold toy, untoy in *; rewrite L in E; cbn [Nat.eqb] in E.
  - assert (y = xor_bytes (rev x) (map N.of_nat (seq 1 16))) by congruence. subst y. clear E.
    assert (LX: length (xor_bytes (rev x) (map N.of_nat (seq 1 16))) = 16) by (rewrite length_xor; rewrite ?rev_length, ?map_length, ?seq_length; auto).
    splits; auto; [apply bytes_ok_xor; auto|]. rewrite LX. cbn [Nat.eqb]. rewrite xor_xor, rev_involutive; auto.
    rewrite rev_length, map_length, seq_length. auto.
  - assert (y = rev (xor_bytes x (map N.of_nat (seq 1 16)))) by congruence. subst y. clear E.
    assert (LX: length (xor_bytes x (map N.of_nat (seq 1 16))) = 16) by (rewrite length_xor; rewrite ?map_length, ?seq_length; auto).
    rewrite rev_length. splits; auto; [apply R, bytes_ok_xor; auto|]. rewrite LX. cbn [Nat.eqb]. rewrite rev_involutive, xor_xor; auto.
Qed.

Definition toy_key : list N := map N.of_nat (seq 30 24).

Example C12_example :
  exists w, kw_wrap toy toy_key (repeat 7%N 40) = (KwOk, w) /\
    kw_unwrap untoy (firstn 32 w) (repeat 9%N 30) = (KwOk, toy_key ++ repeat 9%N 6, 24) /\
    kw_unwrap untoy (upd (firstn 32 w) 20 0%N) (repeat 9%N 30) = (KwIntegrity, repeat 0%N 30, 30).
Proof. eexists. split; [vm_compute; reflexivity|]. split; vm_compute; reflexivity. Qed.

Example C13_example :
  exists w, kwp_wrap toy (firstn 19 toy_key) (repeat 7%N 40) = (KwOk, w) /\
    kwp_unwrap untoy (firstn 32 w) (repeat 9%N 30) = (KwOk, firstn 19 toy_key ++ repeat 0%N 5 ++ repeat 9%N 6, 19) /\
    exists w1, kwp_wrap toy [77%N] (repeat 7%N 16) = (KwOk, w1) /\
      kwp_unwrap untoy w1 (repeat 9%N 8) = (KwOk, [77; 0; 0; 0; 0; 0; 0; 0]%N, 1).
Proof. eexists. split; [vm_compute; reflexivity|]. split; [vm_compute; reflexivity|]. eexists. split; vm_compute; reflexivity. Qed.
