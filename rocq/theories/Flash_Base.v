(** NOR flash as a map from addresses to bytes.  This is the interface `struct flash`
    (core/flash/flash.h) that the code base programs against: programming can only clear bits,
    erasing sets a whole region to 0xff. *)
From Coq Require Import List NArith Lia Bool Arith ZifyBool ZifyNat ZifyN.
From Verif Require Import Base.
Import ListNotations.
Local Open Scope N_scope.

Definition inb (a base len : N) : bool := (base <=? a) && (a <? base + len).

(** Programming clears bits only. *)
Definition nor_write (m : image) (a : N) (data : list N) : image :=
  fun x => if inb x a (N.of_nat (length data)) then N.land (m x) (nth (N.to_nat (x - a)) data 0) else m x.

Definition nor_erase (m : image) (a len : N) : image :=
  fun x => if inb x a len then 255 else m x.

Definition blank_on (m : image) (a len : N) : Prop := forall x, a <= x < a + len -> m x = 255.

Definition bytes_img (m : image) : Prop := forall x, byte_ok (m x).

Lemma inb_spec : forall a base len, inb a base len = true <-> base <= a < base + len.
Proof. intros. unfold inb. lia. Qed.

Lemma inb_false : forall a base len, inb a base len = false <-> a < base \/ base + len <= a.
Proof. intros. unfold inb. lia. Qed.

Lemma nor_write_out : forall m a d x, x < a \/ a + N.of_nat (length d) <= x -> nor_write m a d x = m x.
Proof. intros. unfold nor_write. destruct (inb x a _) eqn:E; auto. apply inb_spec in E. lia. Qed.

Lemma nor_erase_out : forall m a n x, x < a \/ a + n <= x -> nor_erase m a n x = m x.
Proof. intros. unfold nor_erase. destruct (inb x a _) eqn:E; auto. apply inb_spec in E. lia. Qed.

Lemma nor_erase_in : forall m a n x, a <= x < a + n -> nor_erase m a n x = 255.
Proof. intros. unfold nor_erase. apply inb_spec in H. now rewrite H. Qed.

Lemma land_255_byte : forall b, byte_ok b -> N.land 255 b = b.
Proof.
  intros. rewrite N.land_comm. change 255 with (N.ones 8). rewrite N.land_ones. now apply N.mod_small.
Qed.

Lemma nor_write_in : forall m a d x, a <= x < a + N.of_nat (length d) ->
  nor_write m a d x = N.land (m x) (nth (N.to_nat (x - a)) d 0).
Proof. intros. unfold nor_write. apply inb_spec in H. now rewrite H. Qed.

Lemma nor_write_blank : forall m a d x, bytes_ok d -> a <= x < a + N.of_nat (length d) -> m x = 255 ->
  nor_write m a d x = nth (N.to_nat (x - a)) d 0.
Proof.
  intros. rewrite nor_write_in by auto. rewrite H1. apply land_255_byte.
  unfold bytes_ok in H. rewrite Forall_forall in H. apply H. apply nth_In. lia.
Qed.

Lemma nor_erase_blank : forall m a n, blank_on (nor_erase m a n) a n.
Proof. intros m a n x H. now apply nor_erase_in. Qed.

Lemma img_read_write_blank : forall m a d, bytes_ok d -> blank_on m a (N.of_nat (length d)) ->
  img_read (nor_write m a d) a (length d) = d.
Proof.
  intros. apply nth_ext_len with (d := 0); [now rewrite length_img_read|].
  intros i Hi. rewrite length_img_read in Hi. rewrite nth_img_read by auto.
  rewrite nor_write_blank; auto; try lia; [f_equal; lia|]. apply H0. lia.
Qed.

Lemma img_read_write_out : forall m a d b n, (b + N.of_nat n <= a \/ a + N.of_nat (length d) <= b) ->
  img_read (nor_write m a d) b n = img_read m b n.
Proof. intros. apply img_read_ext. intros i Hi. apply nor_write_out. lia. Qed.

Lemma img_read_erase_out : forall m a n b k, (b + N.of_nat k <= a \/ a + n <= b) ->
  img_read (nor_erase m a n) b k = img_read m b k.
Proof. intros. apply img_read_ext. intros i Hi. apply nor_erase_out. lia. Qed.

Lemma img_read_blank : forall m a k, blank_on m a (N.of_nat k) -> img_read m a k = repeat 255 k.
Proof.
  intros. apply nth_ext_len with (d := 0); [now rewrite length_img_read, repeat_length|].
  intros i Hi. rewrite length_img_read in Hi. rewrite nth_img_read by auto.
  rewrite nth_indep with (d := 0) (d' := 255) by (now rewrite repeat_length).
  rewrite nth_repeat. apply H. lia.
Qed.

Lemma blank_on_sub : forall m a n b k, blank_on m a n -> a <= b -> b + k <= a + n -> blank_on m b k.
Proof. intros m a n b k H ? ? x Hx. apply H. lia. Qed.

Lemma blank_erase : forall m a n b k, blank_on m a n -> blank_on (nor_erase m b k) a n.
Proof.
  intros m a n b k H x Hx. unfold nor_erase. destruct (inb x b k); auto.
Qed.

Lemma blank_write_out : forall m a n b d, blank_on m a n -> (b + N.of_nat (length d) <= a \/ a + n <= b) ->
  blank_on (nor_write m b d) a n.
Proof. intros m a n b d H Hd x Hx. rewrite nor_write_out by lia. now apply H. Qed.

Lemma bytes_img_write : forall m a d, bytes_img m -> bytes_img (nor_write m a d).
Proof.
  intros m a d H x. unfold nor_write. destruct (inb _ _ _); auto.
  specialize (H x). unfold byte_ok in *.
  destruct (N.eq_dec (N.land (m x) (nth (N.to_nat (x - a)) d 0)) 0) as [E|E]; [rewrite E; lia|].
  change 256 with (2 ^ 8). apply N.log2_lt_pow2; [lia|].
  pose proof (N.log2_land (m x) (nth (N.to_nat (x - a)) d 0)).
  assert (N.log2 (m x) < 8); [|lia].
  destruct (N.eq_dec (m x) 0) as [Q|Q]; [rewrite Q; reflexivity|].
  apply N.log2_lt_pow2; [lia|exact H].
Qed.

Lemma bytes_img_erase : forall m a n, bytes_img m -> bytes_img (nor_erase m a n).
Proof. intros m a n H x. unfold nor_erase. destruct (inb _ _ _); auto. reflexivity. Qed.
