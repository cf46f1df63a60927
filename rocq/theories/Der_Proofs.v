(** The building blocks: buffers that fill up from the front, and tags. *)
From Coq Require Import List NArith Lia Bool Arith ZifyBool ZifyNat ZifyN.
From Verif Require Import Base Der_Model Der_Spec.
Import ListNotations.

Lemma wr_mid : forall a b c d, length b = length d -> wr (a ++ b ++ c) (length a) d = Ret (a ++ d ++ c).
Proof.
  intros. unfold wr. rewrite !app_length.
  replace (length a + length d <=? _) with true by lia. f_equal. unfold splice.
  rewrite firstn_app, Nat.sub_diag, firstn_all. cbn [firstn]. rewrite app_nil_r. f_equal. f_equal.
  rewrite skipn_app, skipn_all2 by lia. cbn [app]. replace (length a + length d - length a) with (length d) by lia.
  rewrite <- H, skipn_app, skipn_all2, Nat.sub_diag by lia. reflexivity.
Qed.

Lemma wr_end : forall w r d, length d <= length r -> wr (w ++ r) (length w) d = Ret ((w ++ d) ++ skipn (length d) r).
Proof.
  intros. rewrite <- (firstn_skipn (length d) r) at 1. rewrite wr_mid. { now rewrite <- app_assoc. }
  rewrite firstn_length. lia.
Qed.

Lemma wr_end' : forall w r d p, p = length w -> length d <= length r -> wr (w ++ r) p d = Ret ((w ++ d) ++ skipn (length d) r).
Proof. intros; subst; now apply wr_end. Qed.

Lemma sub_ok : forall a b, b <= a -> sub a b = Ret (a - b).
Proof. intros. unfold sub. now replace (b <=? a) with true by lia. Qed.

Lemma rds_all : forall l n, n = length l -> rds l n = Ret l.
Proof. intros; subst. unfold rds. rewrite Nat.leb_refl. now rewrite firstn_all. Qed.

Lemma rds_app : forall a b n, n = length a -> rds (a ++ b) n = Ret a.
Proof.
  intros; subst. unfold rds. rewrite app_length. replace (_ <=? _) with true by lia.
  now rewrite firstn_app, Nat.sub_diag, firstn_all, firstn_O, app_nil_r.
Qed.

Lemma skip_app : forall a b n, n = length a -> skip (a ++ b) n = Ret b.
Proof.
  intros; subst. unfold skip. rewrite app_length. replace (_ <=? _) with true by lia.
  now rewrite skipn_app, Nat.sub_diag, skipn_all, skipn_O.
Qed.

Lemma len_octets_length : forall n, length (len_octets n) = if n <? 128 then 1 else 2.
Proof. intros. unfold len_octets. now destruct (n <? 128). Qed.

Lemma length_tlv : forall t c, length (tlv t c) = (if length c <? 128 then 2 else 3) + length c.
Proof. intros. unfold tlv. cbn [length]. rewrite app_length, len_octets_length. destruct (length c <? 128); lia. Qed.

(** ** add_tag *)
Definition hdr (type : N) (tl : nat) : list N := type :: len_octets tl.

Lemma length_hdr : forall t n, length (hdr t n) = if n <? 128 then 2 else 3.
Proof. intros. unfold hdr. cbn [length]. rewrite len_octets_length. now destruct (n <? 128). Qed.

Lemma tlv_hdr : forall t c, tlv t c = hdr t (length c) ++ c.
Proof. reflexivity. Qed.

Lemma add_tag_none : forall type tl w r, tl < 256 ->
  add_tag type tl None (w ++ r) (length w) (length r)
  = if length r <? 3 then Err
    else Ret ((w ++ hdr type tl) ++ skipn (length (hdr type tl)) r, length (w ++ hdr type tl), length r - length (hdr type tl)).
Proof.
  intros type tl w r H. unfold add_tag. destruct (length r <? 3) eqn:E; auto.
  rewrite wr_end by (cbn; lia). cbn [bind length]. unfold hdr, len_octets.
  replace (N.of_nat tl mod 256)%N with (N.of_nat tl) by (rewrite N.mod_small; lia).
  destruct (128 <=? tl) eqn:F.
  - replace (tl <? 128) with false by lia.
    rewrite wr_end' by (rewrite ?app_length, ?skipn_length; cbn [length]; lia). cbn [bind].
    rewrite sub_ok by lia. cbn [bind length].
    rewrite wr_end' by (rewrite ?app_length, ?skipn_length; cbn [length]; lia). cbn [bind].
    rewrite sub_ok by lia. cbn [bind length]. rewrite !skipn_skipn, !app_length. cbn [length]. rewrite <- !app_assoc. cbn [app].
    repeat (f_equal; try lia).
  - replace (tl <? 128) with true by lia. cbn [bind].
    rewrite wr_end' by (rewrite ?app_length, ?skipn_length; cbn [length]; lia). cbn [bind].
    rewrite sub_ok by lia. cbn [bind length]. rewrite !skipn_skipn, !app_length. cbn [length]. rewrite <- !app_assoc. cbn [app].
    repeat (f_equal; try lia).
Qed.

Lemma add_tag_data : forall type tl d buf pos len,
  add_tag type tl (Some d) buf pos len =
  bind (add_tag type tl None buf pos len) (fun '(buf, pos, len) =>
    if len <? tl then Err else d <- rds d tl; buf <- wr buf pos d; len <- sub len tl; Ret (buf, pos + tl, len)).
Proof.
  intros. unfold add_tag. destruct (len <? 3); auto. destruct (wr buf pos [type]); auto. cbn [bind].
  destruct (128 <=? tl).
  - destruct (wr a (S pos) [0x81%N]); auto. cbn [bind]. destruct (sub len 1); auto. cbn [bind].
    destruct (wr a0 _ _); auto. cbn [bind]. destruct (sub a1 2); auto.
  - cbn [bind]. destruct (wr a _ _); auto. cbn [bind]. destruct (sub len 2); auto.
Qed.

Lemma add_tag_some : forall type d w r, length d < 256 -> d <> [] ->
  add_tag type (length d) (Some d) (w ++ r) (length w) (length r)
  = if length r <? length (tlv type d) then Err
    else Ret ((w ++ tlv type d) ++ skipn (length (tlv type d)) r, length (w ++ tlv type d), length r - length (tlv type d)).
Proof.
  intros type d w r H NE.
  assert (length d <> 0) by (destruct d; cbn; [congruence|lia]).
  rewrite tlv_hdr. rewrite !app_length. pose proof (length_hdr type (length d)) as LH.
  rewrite add_tag_data, add_tag_none by auto.
  destruct (length r <? 3) eqn:E.
  { replace (length r <? _) with true by (destruct (length d <? 128); lia). reflexivity. }
  cbn [bind]. set (h := length (hdr type (length d))) in *.
  destruct (length r - h <? length d) eqn:F.
  { replace (length r <? _) with true by lia. reflexivity. }
  replace (length r <? _) with false by (destruct (length d <? 128); lia).
  rewrite rds_all by auto. cbn [bind]. rewrite wr_end by (rewrite skipn_length; lia). cbn [bind].
  rewrite sub_ok by lia. cbn [bind]. rewrite skipn_skipn, <- !app_assoc, !app_length. fold h. repeat (f_equal; try lia).
Qed.

Lemma add_tag_some' : forall type n d pos len w r, n = length d -> pos = length w -> len = length r -> length d < 256 -> d <> [] ->
  add_tag type n (Some d) (w ++ r) pos len
  = if length r <? length (tlv type d) then Err
    else Ret ((w ++ tlv type d) ++ skipn (length (tlv type d)) r, length (w ++ tlv type d), length r - length (tlv type d)).
Proof. intros; subst. now apply add_tag_some. Qed.

Lemma add_tag_none' : forall type tl pos len w r, pos = length w -> len = length r -> tl < 256 ->
  add_tag type tl None (w ++ r) pos len
  = if length r <? 3 then Err
    else Ret ((w ++ hdr type tl) ++ skipn (length (hdr type tl)) r, length (w ++ hdr type tl), length r - length (hdr type tl)).
Proof. intros; subst. now apply add_tag_none. Qed.

(** ** next_tag *)
Lemma rd_ok : forall l i d, i < length l -> rd l i = Ret (nth i l d).
Proof. intros. unfold rd. now rewrite (nth_error_nth' l d H). Qed.

Lemma rds_ok : forall l n, n <= length l -> rds l n = Ret (firstn n l).
Proof. intros. unfold rds. now replace (n <=? length l) with true by lia. Qed.

Lemma skip_ok : forall l n, n <= length l -> skip l n = Ret (skipn n l).
Proof. intros. unfold skip. now replace (n <=? length l) with true by lia. Qed.

(** The header of an item with a length in one byte *)
Definition is_hdr (type : N) (n : nat) (h : list N) : Prop := h = [type; N.of_nat n] /\ n < 128 \/ h = [type; 0x81%N; N.of_nat n].

Lemma length_is_hdr : forall t n h, is_hdr t n h -> 2 <= length h <= 3.
Proof. intros t n h [(-> & _)| ->]; cbn; lia. Qed.

Lemma is_hdr_hdr : forall t n, is_hdr t n (hdr t n).
Proof. intros. unfold hdr, len_octets. destruct (n <? 128) eqn:E; [left; split; auto; lia|right; auto]. Qed.

Lemma next_tag_spec : forall type der len, len <= length der ->
  next_tag type der len = Err \/
  exists h rest n, der = h ++ rest /\ is_hdr type n h /\ length h + n <= len /\
    next_tag type der len = Ret (rest, len - length h, n).
Proof.
  intros type der len L. remember (next_tag type der len) as x eqn:X. unfold next_tag in X.
  destruct (len <? 3) eqn:E; auto.
  destruct der as [|a [|p [|q t]]]; cbn [length] in L; try lia.
  unfold rd in X. cbn [nth_error bind] in X. destruct (a =? type)%N eqn:T; cbn [negb] in X; auto. apply N.eqb_eq in T. subst a.
  destruct (p <? 0x80)%N eqn:P.
  - cbn [bind] in X. destruct (len <? 2 + N.to_nat p) eqn:F; auto. right.
    exists [type; p], (q :: t), (N.to_nat p). split; auto. split; [left; split; [now rewrite N2Nat.id|lia]|]. cbn [length]. split; [lia|].
    unfold skip in X. cbn [length Nat.leb skipn bind] in X. rewrite sub_ok in X by lia. exact X.
  - destruct (p =? 0x81)%N eqn:Q; auto. apply N.eqb_eq in Q. subst p. cbn [bind] in X.
    destruct (len <? 3 + N.to_nat q) eqn:F; auto. right.
    exists [type; 0x81%N; q], t, (N.to_nat q). split; auto. split; [right; now rewrite N2Nat.id|]. cbn [length]. split; [lia|].
    unfold skip in X. cbn [length Nat.leb skipn bind] in X. rewrite sub_ok in X by lia. exact X.
Qed.

Lemma next_tag_hdr : forall type h n rest len, is_hdr type n h -> 3 <= len -> length h + n <= len -> len <= length (h ++ rest) ->
  next_tag type (h ++ rest) len = Ret (rest, len - length h, n).
Proof.
  intros type h n rest len [(-> & S)| ->] L3 L1 L2; unfold next_tag; replace (len <? 3) with false by lia; cbn [length app] in *.
  - unfold rd at 1. cbn [nth_error bind]. rewrite N.eqb_refl. cbn [negb]. unfold rd at 1. cbn [nth_error bind].
    replace (_ <? 0x80)%N with true by lia. cbn [bind]. rewrite Nat2N.id. replace (len <? 2 + n) with false by lia.
    unfold skip. cbn [length Nat.leb skipn bind]. rewrite sub_ok by lia. reflexivity.
  - unfold rd at 1. cbn [nth_error bind]. rewrite N.eqb_refl. cbn [negb]. unfold rd at 1. cbn [nth_error bind].
    replace (_ <? 0x80)%N with false by reflexivity. replace (0x81 =? 0x81)%N with true by reflexivity. unfold rd. cbn [nth_error bind].
    rewrite Nat2N.id. replace (len <? 3 + n) with false by lia.
    unfold skip. cbn [length Nat.leb skipn bind]. rewrite sub_ok by lia. reflexivity.
Qed.

Lemma same_ok : forall a b, same a b = true <-> a = b.
Proof. intros. unfold same. destruct (list_eq_dec N.eq_dec a b); split; auto; discriminate. Qed.
