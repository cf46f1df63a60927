(** C60: Base 64 *)
From Coq Require Import List NArith Bool Arith Lia ZifyBool ZifyNat ZifyN.
From Verif Require Import Base Der_Model Der_Proofs Base64_Model Base64_Spec Base64_Proofs.
Import ListNotations.

(** The encoding is that of RFC 4648 with a terminating zero, if there is room for both; the rest of the buffer is as before, and nothing outside is
    accessed.  [SIZE] is the number of values of size_t. *)
Theorem C60_encode : forall SIZE data buf, bytes_ok data -> (4 * N.of_nat (length data) + 12 <= SIZE)%N ->
  let e := base64 data ++ [0%N] in
  encode SIZE data buf = if length buf <? length e then Err else Ret (e ++ skipn (length e) buf).
Proof.
  intros SIZE data buf B L e. unfold encode. rewrite base64_length_ok by auto.
  assert (Le: length e = (length data + 2) / 3 * 4 + 1) by (subst e; rewrite app_length, base64_length_spec by auto; reflexivity).
  replace ((N.of_nat (length data) + 2) / 3 * 4 + 1)%N with (N.of_nat (length e)).
  2: { rewrite Le. rewrite Nat2N.inj_add, Nat2N.inj_mul, Nat2N.inj_div, Nat2N.inj_add. reflexivity. }
  destruct (length buf <? length e) eqn:X; destruct (_ <? _)%N eqn:Y; try lia; auto.
  pose proof (groups_rest data [] buf B) as G. cbn [app length Nat.add] in G. unfold e in X. rewrite app_length in X. cbn [length] in X.
  specialize (G ltac:(lia)). destruct (groups data buf 0) as [[[d b] o]| |]; [|discriminate G|discriminate G].
  cbn [bind] in *. rewrite G. cbn [bind]. rewrite wr_end by (rewrite skipn_length; cbn [length]; lia). rewrite skipn_skipn. cbn [length].
  unfold e. rewrite app_length. reflexivity.
Qed.
Print Assumptions C60_encode.

(** Encoded data has the length that BASE64_LENGTH (base64.h:16) announces, without the terminator a multiple of four. *)
Theorem C60_length : forall SIZE data, bytes_ok data -> (4 * N.of_nat (length data) + 12 <= SIZE)%N ->
  base64_length SIZE (N.of_nat (length data)) = N.of_nat (length (base64 data) + 1) /\ length (base64 data) = 4 * ((length data + 2) / 3).
Proof.
  intros SIZE data B L. rewrite base64_length_ok, base64_length_spec by auto. split; [|lia].
  rewrite Nat2N.inj_add, Nat2N.inj_mul, Nat2N.inj_div, Nat2N.inj_add. reflexivity.
Qed.
Print Assumptions C60_length.

(** The data can be got back: no two byte strings have the same encoding. *)
Theorem C60_decode : forall data, bytes_ok data -> decoded (base64 data) = data.
Proof. exact decoded_base64. Qed.
Print Assumptions C60_decode.

(** The examples of RFC 4648, section 10: the encodings of the empty string, [f], [fo], [foo], [foob], [fooba] and [foobar]. *)
Example C60_example :
  map (fun n => base64 (firstn n [0x66; 0x6f; 0x6f; 0x62; 0x61; 0x72]%N)) [0; 1; 2; 3; 4; 5; 6] =
    [[]; [90; 103; 61; 61]; [90; 109; 56; 61]; [90; 109; 57; 118]; [90; 109; 57; 118; 89; 103; 61; 61];
     [90; 109; 57; 118; 89; 109; 69; 61]; [90; 109; 57; 118; 89; 109; 70; 121]]%N /\
  encode (2 ^ 32) [0x66; 0x6f; 0x6f; 0x62]%N (repeat 7%N 10) = Ret [90; 109; 57; 118; 89; 103; 61; 61; 0; 7]%N /\
  encode (2 ^ 32) [0x66; 0x6f; 0x6f; 0x62]%N (repeat 7%N 8) = Err.
Proof. repeat split; reflexivity. Qed.

(** For a quarter of the range of size_t the length wraps around: a gigabyte of data is encoded into a buffer of one byte. *)
Theorem C60_length_wraps_refuted : forall k data buf, k = 32%N \/ k = 64%N -> bytes_ok data -> N.of_nat (length data) = (2 ^ (k - 2))%N -> length buf = 1 ->
  encode (2 ^ k) data buf = Over.
Proof.
  intros k data buf K B L Lb. unfold encode. rewrite L, Lb. replace (base64_length (2 ^ k) (2 ^ (k - 2))) with 1%N by (destruct K as [-> | ->]; reflexivity).
  cbn [N.of_nat N.ltb N.compare Pos.compare Pos.compare_cont Pos.of_succ_nat].
  assert (M: (3 <= N.of_nat (length data))%N) by (rewrite L; destruct K as [-> | ->]; apply N.leb_le; reflexivity).
  destruct data as [|b1 [|b2 [|b3 t]]]; cbn [length] in M; try lia. destruct buf as [|x [|]]; cbn [length] in Lb; try lia.
  inversion B as [|? ? B1 B']; subst. inversion B' as [|? ? B2 _]; subst. cbn [groups].
  pose proof (small_parts b1 B1) as S1. pose proof (s2_number b1 b2 B1 B2) as (_ & S2). fold (s2 b1 b2).
  rewrite (put_spec [] x []) by lia. cbn [bind app]. unfold put at 1. unfold rd.
  destruct (nth_error encoding (N.to_nat (s2 b1 b2))) eqn:E; [|reflexivity]. reflexivity.
Qed.
Print Assumptions C60_length_wraps_refuted.
