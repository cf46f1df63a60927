(** C72: unseal requests. *)
From Coq Require Import List NArith Lia Bool Arith ZifyBool ZifyNat ZifyN.
From Verif Require Import Base Unseal_Model Unseal_Spec FlashLog_Scan_Proofs
  SpdmSession_Wire_Proofs.
Import ListNotations.
Local Open Scope nat_scope.

Lemma length_prefixed : forall l, length (prefixed l) = 2 + length l.
Proof. intros. unfold prefixed. rewrite app_length. reflexivity. Qed.

Lemma length_encode : forall f, wellformed f ->
  length (encode f) = 365 + length (f_seed f) + length (f_ciphertext f).
Proof.
  intros f (H & _ & _ & _ & _ & Hh & Hp). unfold encode.
  rewrite !app_length, !length_prefixed, H, Hh, Hp. cbn [length]. lia.
Qed.

(** Where the fields are in a well-formed request followed by anything. *)
Record Layout (f : fields) (buf : list N) : Prop := mkLayout {
  l_types : nth 5 buf 0%N = f_types f;
  l_params : nth 6 buf 0%N = f_params f;
  l_seed_len : rd16 buf 7 = Some (length (f_seed f));
  l_seed : field buf 9 (length (f_seed f)) = Some (f_seed f);
  l_cipher_len : rd16 buf (ciphertext_at (length (f_seed f))) = Some (length (f_ciphertext f));
  l_cipher : field buf (ciphertext_at (length (f_seed f)) + 2) (length (f_ciphertext f)) =
             Some (f_ciphertext f);
  l_hmac_len : rd16 buf (hmac_at (length (f_seed f)) (length (f_ciphertext f))) = Some 32;
  l_hmac : field buf (hmac_at (length (f_seed f)) (length (f_ciphertext f)) + 2) 32 =
           Some (f_hmac f);
  l_pmrs : field buf (pmrs_at (length (f_seed f)) (length (f_ciphertext f)) 32) 320 =
           Some (f_pmrs f)
}.

Lemma rd16_at : forall a l c o, length a = o -> (N.of_nat (length l) < 65536)%N ->
  rd16 (a ++ prefixed l ++ c) o = Some (length l).
Proof.
  intros a l c o Ho Hl. unfold rd16, prefixed. rewrite <- app_assoc.
  rewrite (window_at a (le16 (N.of_nat (length l))) (l ++ c) o 2 Ho eq_refl).
  rewrite le_value_le16 by exact Hl. rewrite Nat2N.id.
  rewrite !app_length. cbn [length le16].
  replace (o + 2 <=? length a + (2 + (length l + length c))) with true by (subst; lia). reflexivity.
Qed.

Lemma field_at : forall a b c o n, length a = o -> length b = n ->
  field (a ++ b ++ c) o n = Some b.
Proof.
  intros a b c o n Ho Hn. unfold field. rewrite (window_at a b c o n Ho Hn), !app_length.
  replace (o + n <=? length a + (length b + length c)) with true by (subst; lia). reflexivity.
Qed.

Lemma layout : forall f rest, wellformed f -> Layout f (encode f ++ rest).
Proof.
  intros f rest (H & _ & _ & Hs & Hc & Hh & Hp). unfold encode.
  destruct f as [hd ty pa seed ci hm pm]. cbn [f_header f_types f_params f_seed f_ciphertext f_hmac f_pmrs] in *.
  repeat rewrite <- app_assoc.
  constructor; cbn [f_types f_params f_seed f_ciphertext f_hmac f_pmrs];
    unfold pmrs_at, hmac_at, ciphertext_at, UNSEAL_SIZE.
  - rewrite app_nth2 by lia. rewrite H. reflexivity.
  - rewrite app_nth2 by lia. rewrite H. reflexivity.
  - rewrite (app_assoc hd). apply rd16_at; [rewrite app_length, H; reflexivity|lia].
  - unfold prefixed at 1. rewrite <- (app_assoc (le16 _)), (app_assoc hd), (app_assoc (hd ++ _)).
    apply field_at; [rewrite !app_length, H; reflexivity|reflexivity].
  - rewrite (app_assoc hd), (app_assoc (hd ++ _)).
    apply rd16_at; [rewrite !app_length, length_prefixed, H; cbn [length]; lia|lia].
  - rewrite (app_assoc hd), (app_assoc (hd ++ _)). unfold prefixed at 2.
    rewrite <- (app_assoc (le16 _)), (app_assoc ((hd ++ _) ++ _)).
    apply field_at; [rewrite !app_length, length_prefixed, H; cbn [length le16]; lia|reflexivity].
  - rewrite (app_assoc hd), (app_assoc (hd ++ _)), (app_assoc ((hd ++ _) ++ _)).
    rewrite <- Hh. apply rd16_at; [rewrite !app_length, !length_prefixed, H; cbn [length]; lia|].
    rewrite Hh. reflexivity.
  - rewrite (app_assoc hd), (app_assoc (hd ++ _)), (app_assoc ((hd ++ _) ++ _)). unfold prefixed at 3.
    rewrite <- (app_assoc (le16 _)), (app_assoc (((hd ++ _) ++ _) ++ _)).
    apply field_at; [rewrite !app_length, !length_prefixed, H; cbn [length le16]; lia|exact Hh].
  - rewrite (app_assoc hd), (app_assoc (hd ++ _)), (app_assoc ((hd ++ _) ++ _)),
      (app_assoc (((hd ++ _) ++ _) ++ _)).
    apply field_at; [rewrite !app_length, !length_prefixed, H, Hh; cbn [length]; lia|exact Hp].
Qed.

Lemma rd16_inv : forall buf i n, bytes buf -> rd16 buf i = Some n ->
  i + 2 <= length buf /\ window i 2 buf = le16 (N.of_nat n) /\ (N.of_nat n < 65536)%N.
Proof.
  intros buf i n Hb H. unfold rd16 in H. destruct (i + 2 <=? length buf) eqn:E; [|discriminate].
  assert (L : length (window i 2 buf) = 2) by (rewrite length_window; lia).
  assert (B : bytes (window i 2 buf)).
  { unfold bytes, window. apply Forall_forall. intros x Hx. unfold bytes in Hb.
    rewrite Forall_forall in Hb. apply Hb. rewrite <- (firstn_skipn i buf). apply in_or_app. right.
    rewrite <- (firstn_skipn 2 (skipn i buf)). apply in_or_app. left. exact Hx. }
  destruct (window i 2 buf) as [|x [|y [|z l]]]; try discriminate L.
  assert (En : N.of_nat n = (x + 256 * y)%N).
  { assert (En : n = N.to_nat (le_value [x; y])) by congruence. rewrite En, N2Nat.id.
    change (le_value [x; y]) with (x + 256 * (y + 256 * 0))%N. lia. }
  clear H. split; [lia|]. inversion B as [|? ? Bx B']; subst. inversion B' as [|? ? By _]; subst.
  rewrite En. split; [|lia].
  unfold le16. f_equal; [|f_equal].
  - rewrite (N.mul_comm 256 y), N.mod_add by lia. symmetry. apply N.mod_small. lia.
  - rewrite (N.mul_comm 256 y), N.div_add by lia. rewrite N.div_small by lia.
    rewrite N.add_0_l. symmetry. apply N.mod_small. lia.
Qed.

(** A request is accepted exactly if it is well formed, whatever is left in
    the buffer behind it. *)
Theorem C72_accepted : forall buf len, bytes buf -> len <= length buf ->
  (unseal_message buf len = Accepted <->
   exists f, wellformed f /\ firstn len buf = encode f).
Proof.
  intros buf len Hb Hl. split.
  - intros H. unfold unseal_message in H.
    destruct (len <? UNSEAL_SIZE) eqn:E0; [discriminate|]. unfold UNSEAL_SIZE in E0.
    destruct (negb (hmac_type buf =? 0)%N || (1 <? seed_type buf)%N) eqn:E1; [discriminate|].
    destruct ((seed_type buf =? 0)%N && (2 <? rsa_padding buf)%N) eqn:E2; [discriminate|].
    destruct (rd16 buf 7) as [sl|] eqn:R1; [|discriminate].
    destruct ((sl =? 0) || (len <=? ciphertext_at sl)) eqn:E3; [discriminate|].
    destruct (len <=? ciphertext_at sl + CIPHERTEXT_SIZE) eqn:E4; [discriminate|].
    destruct (rd16 buf (ciphertext_at sl)) as [cl|] eqn:R2; [|discriminate].
    destruct ((cl =? 0) || (len <=? hmac_at sl cl)) eqn:E5; [discriminate|].
    destruct (len <=? ciphertext_at sl + HMAC_SIZE) eqn:E6; [discriminate|].
    destruct (rd16 buf (hmac_at sl cl)) as [hl|] eqn:R3; [|discriminate].
    destruct (negb (hl =? SHA256_LENGTH) || (len <=? pmrs_at sl cl hl)) eqn:E7; [discriminate|].
    destruct (negb (pmrs_at sl cl hl + PMRS_SIZE =? len)) eqn:E8; [discriminate|].
    unfold pmrs_at, hmac_at, ciphertext_at, UNSEAL_SIZE, CIPHERTEXT_SIZE, HMAC_SIZE, PMRS_SIZE,
      SHA256_LENGTH in *.
    assert (hl = 32) by lia. subst hl.
    destruct (rd16_inv _ _ _ Hb R1) as (A1 & B1 & C1).
    destruct (rd16_inv _ _ _ Hb R2) as (A2 & B2 & C2).
    destruct (rd16_inv _ _ _ Hb R3) as (A3 & B3 & C3).
    set (f := mkFields (firstn 5 buf) (nth 5 buf 0%N) (nth 6 buf 0%N) (window 9 sl buf)
                (window (11 + sl) cl buf) (window (13 + sl + cl) 32 buf)
                (window (45 + sl + cl) 320 buf)).
    exists f.
    assert (Ls : length (window 9 sl buf) = sl) by (rewrite length_window; lia).
    assert (Lc : length (window (11 + sl) cl buf) = cl) by (rewrite length_window; lia).
    assert (Lh : length (window (13 + sl + cl) 32 buf) = 32) by (rewrite length_window; lia).
    assert (Lp : length (window (45 + sl + cl) 320 buf) = 320) by (rewrite length_window; lia).
    split.
    { unfold wellformed, f. cbn [f_header f_types f_params f_seed f_ciphertext f_hmac f_pmrs].
      rewrite Ls, Lc, Lh, Lp. unfold hmac_type, seed_type, rsa_padding in *.
      split; [rewrite firstn_length; lia|]. split; [lia|]. split; [lia|]. split; [lia|]. split; [lia|].
      split; [reflexivity|reflexivity]. }
    unfold encode, f, prefixed. cbn [f_header f_types f_params f_seed f_ciphertext f_hmac f_pmrs].
    rewrite Ls, Lc, Lh, <- B1. replace (10 + sl - 1) with (9 + sl) in * by lia. rewrite <- B2.
    replace (9 + sl + 2 + cl) with (11 + sl + cl) in * by lia. rewrite <- B3.
    assert (W : firstn len buf = window 0 (5 + (2 + (2 + (sl + (2 + (cl + (2 + (32 + 320)))))))) buf).
    { unfold window. cbn [skipn]. f_equal. lia. }
    rewrite W. rewrite window_split. f_equal. rewrite window_split. f_equal.
    { unfold window. clear - A1. destruct buf as [|? [|? [|? [|? [|? [|? [|? b]]]]]]]; cbn in A1; try lia.
      reflexivity. }
    rewrite <- !app_assoc.
    do 5 rewrite window_split. rewrite (window_split _ 32 320).
    repeat (apply f_equal2; [f_equal; lia|]). f_equal. lia.
  - intros (f & W & E).
    assert (Hlen : len = length (encode f)).
    { rewrite <- E, firstn_length. lia. }
    rewrite <- (firstn_skipn len buf), E.
    destruct (layout f (skipn len buf) W) as [L1 L2 L3 L4 L5 L6 L7 L8 L9].
    pose proof (length_encode f W) as LE. destruct W as (W1 & W2 & W3 & W4 & W5 & W6 & W7).
    unfold unseal_message, hmac_type, seed_type, rsa_padding. rewrite L1, L2, L3, L5, L7.
    unfold pmrs_at, hmac_at, ciphertext_at, UNSEAL_SIZE, CIPHERTEXT_SIZE, HMAC_SIZE, PMRS_SIZE,
      SHA256_LENGTH.
    rewrite W2.
    repeat match goal with
    | |- (if ?b then _ else _) = Accepted => replace b with false by (symmetry; lia)
    end. reflexivity.
Qed.
Print Assumptions C72_accepted.

(** What is unsealed is what the request says: the copy in the event buffer
    gives back exactly the fields, inside the buffer. *)
Theorem C72_arguments : forall f rest, wellformed f ->
  unseal_arguments (encode f ++ rest) = Some (request_of f).
Proof.
  intros f rest W. destruct (layout f rest W) as [L1 L2 L3 L4 L5 L6 L7 L8 L9].
  unfold unseal_arguments, SHA256_LENGTH, PMRS_SIZE. rewrite L3, L4, L5, L6, L7, L8, L9.
  unfold request_of, seed_type, ecdh_processing, rsa_padding. rewrite L1, L2. reflexivity.
Qed.
Print Assumptions C72_arguments.

(** So an accepted request has one reading only. *)
Theorem C72_unambiguous : forall f g, wellformed f -> wellformed g -> encode f = encode g -> f = g.
Proof.
  intros f g Wf Wg E.
  pose proof (C72_arguments f [] Wf) as A. rewrite E, (C72_arguments g [] Wg) in A.
  injection A as A1 A2 A3 A4 A5 A6.
  destruct (layout f [] Wf) as [L1 L2 _ _ _ _ _ _ _]. destruct (layout g [] Wg) as [M1 M2 _ _ _ _ _ _ _].
  rewrite E in L1, L2. rewrite L1 in M1. rewrite L2 in M2.
  assert (H : f_header f = f_header g).
  { destruct Wf as (Hf & _). destruct Wg as (Hg & _). unfold encode in E.
    apply app_inj_len in E; [tauto|congruence]. }
  destruct f, g. cbn in *. congruence.
Qed.
Print Assumptions C72_unambiguous.

(** No read goes further than one byte behind the message. *)
Theorem C72_reads : forall buf len, bytes buf -> S len <= length buf ->
  unseal_message buf len <> OutOfBounds.
Proof.
  intros buf len Hb Hl H. unfold unseal_message in H.
  destruct (len <? UNSEAL_SIZE) eqn:E0; [discriminate|]. unfold UNSEAL_SIZE in E0.
  destruct (negb (hmac_type buf =? 0)%N || (1 <? seed_type buf)%N) eqn:E1; [discriminate|].
  destruct ((seed_type buf =? 0)%N && (2 <? rsa_padding buf)%N) eqn:E2; [discriminate|].
  destruct (rd16 buf 7) as [sl|] eqn:R1.
  2: { unfold rd16 in R1. destruct (7 + 2 <=? length buf) eqn:G; [discriminate|lia]. }
  destruct ((sl =? 0) || (len <=? ciphertext_at sl)) eqn:E3; [discriminate|].
  destruct (len <=? ciphertext_at sl + CIPHERTEXT_SIZE) eqn:E4; [discriminate|].
  unfold CIPHERTEXT_SIZE in E4.
  destruct (rd16 buf (ciphertext_at sl)) as [cl|] eqn:R2.
  2: { unfold rd16 in R2. destruct (ciphertext_at sl + 2 <=? length buf) eqn:G; [discriminate|lia]. }
  destruct ((cl =? 0) || (len <=? hmac_at sl cl)) eqn:E5; [discriminate|].
  destruct (len <=? ciphertext_at sl + HMAC_SIZE) eqn:E6; [discriminate|].
  destruct (rd16 buf (hmac_at sl cl)) as [hl|] eqn:R3.
  2: { unfold rd16 in R3. destruct (hmac_at sl cl + 2 <=? length buf) eqn:G; [discriminate|lia]. }
  repeat match type of H with (if ?b then _ else _) = _ => destruct b; [discriminate H|] end.
  discriminate H.
Qed.
Print Assumptions C72_reads.

(** A concrete request is accepted and taken apart. *)
Definition demo : fields :=
  mkFields [126; 20; 19; 3; 137]%N 1 1 [7; 8; 9]%N [1; 2; 3; 4]%N (repeat 5%N 32) (repeat 6%N 320).
Example C72_demo : wellformed demo /\ unseal_message (encode demo ++ [99%N]) 372 = Accepted /\
  unseal_arguments (encode demo) = Some (request_of demo).
Proof.
  split; [|split; vm_compute; reflexivity].
  unfold wellformed. cbn -[N.lt]. repeat split; try reflexivity; auto; lia.
Qed.

(** The check in front of the HMAC length looks at the ciphertext once more
    (cerberus_protocol_optional_commands.c:689-690).  If the message ends one
    byte into the HMAC length and fills the buffer, the length is read past the
    end of the buffer. *)
Theorem C72_overread_refuted : exists buf len, bytes buf /\ len = length buf /\
  unseal_message buf len = OutOfBounds.
Proof.
  exists ([126; 20; 19; 3; 137; 0; 0; 1; 0; 7; 2; 0; 1; 2; 32]%N), 15.
  split; [|split; [reflexivity|vm_compute; reflexivity]].
  unfold bytes. repeat (apply Forall_cons; [lia|]). apply Forall_nil.
Qed.
Print Assumptions C72_overread_refuted.
