(** Decoding of keys. *)
From Coq Require Import List NArith Lia Bool Arith ZifyBool ZifyNat ZifyN.
From Verif Require Import Base Der_Model Der_Spec Der_Proofs Der_Key_Proofs.
Import ListNotations.

Lemma bind_ret : forall A B (x : res A) (f : A -> res B) y, bind x f = Ret y -> exists a, x = Ret a /\ f a = Ret y.
Proof. intros A B [a| |] f y E; try discriminate. eauto. Qed.

Lemma next_tag_inv : forall type der len rest len' n, next_tag type der len = Ret (rest, len', n) ->
  exists h, der = h ++ rest /\ is_hdr type n h /\ length h + n <= len /\ len' = len - length h.
Proof.
  intros type der len rest len' n E. unfold next_tag in E. destruct (len <? 3) eqn:L; [discriminate|].
  destruct der as [|a [|p der]]; try discriminate. { unfold rd in E. cbn [nth_error bind] in E. destruct (negb _); discriminate. }
  unfold rd in E. cbn [nth_error bind] in E. destruct (a =? type)%N eqn:T; [|discriminate]. apply N.eqb_eq in T. subst a. cbn [negb] in E.
  destruct (p <? 0x80)%N eqn:P.
  - cbn [bind] in E. destruct (len <? 2 + N.to_nat p) eqn:F; [discriminate|]. unfold skip in E. cbn [length Nat.leb skipn bind] in E. rewrite sub_ok in E by lia. cbn [bind] in E.
    inversion E; subst. exists [type; p]. split; auto. split; [left; split; [now rewrite N2Nat.id|lia]|]. cbn [length]. lia.
  - destruct (p =? 0x81)%N eqn:Q; [|discriminate]. apply N.eqb_eq in Q. subst p. destruct der as [|q der]; [discriminate|]. cbn [bind] in E.
    destruct (len <? 3 + N.to_nat q) eqn:F; [discriminate|]. unfold skip in E. cbn [length Nat.leb skipn bind] in E. rewrite sub_ok in E by lia. cbn [bind] in E.
    inversion E; subst. exists [type; 0x81%N; q]. split; auto. split; [right; now rewrite N2Nat.id|]. cbn [length]. lia.
Qed.

Lemma rds_inv : forall l n d, rds l n = Ret d -> exists t, l = d ++ t /\ length d = n.
Proof. intros l n d E. unfold rds in E. destruct (n <=? length l) eqn:L; [|discriminate]. inversion E. exists (skipn n l). rewrite firstn_skipn, firstn_length. split; auto. lia. Qed.

Lemma skip_inv : forall l n t, skip l n = Ret t -> exists d, l = d ++ t /\ length d = n.
Proof. intros l n t E. unfold skip in E. destruct (n <=? length l) eqn:L; [|discriminate]. inversion E. exists (firstn n l). rewrite firstn_skipn, firstn_length. split; auto. lia. Qed.

Lemma sub_inv : forall a b c, sub a b = Ret c -> b <= a /\ c = a - b.
Proof. intros a b c E. unfold sub in E. destruct (b <=? a) eqn:L; [|discriminate]. inversion E. split; auto. lia. Qed.

Lemma rd_inv : forall l i x, rd l i = Ret x -> nth_error l i = Some x.
Proof. intros l i x E. unfold rd in E. destruct (nth_error l i); congruence. Qed.

Lemma is_hdr_header : forall t n h, is_hdr t n h -> short_header t h.
Proof. intros t n h [(-> & L)| ->]; exists (N.of_nat n); [left; split; auto; lia|right; auto]. Qed.

Lemma is_hdr_item : forall t c h, is_hdr t (length c) h -> short_item t c (h ++ c).
Proof. intros t c h H. exists h. split; auto. Qed.

Lemma app_head : forall (a b c d : list N), a ++ b = c ++ d -> length a = length c -> a = c /\ b = d.
Proof. induction a; intros b [|y c] d E L; cbn in L; try discriminate; auto. inversion E; subst. destruct (IHa b c d) as (-> & ->); auto. Qed.

(** ** Public keys *)

(** What a public key looks like to the decoder *)
Definition public_key_form (der : list N) (k : nat) (format : N) (point : list N) (rest : list N) : Prop :=
  exists h1 h2 ea ec hb oid z, der = h1 ++ h2 ++ ea ++ ec ++ hb ++ (z :: format :: point) ++ rest /\
    short_header 0x30 h1 /\ short_header 0x30 h2 /\ short_item 6 ec_public_key ea /\ curve k oid /\ short_item 6 oid ec /\
    is_hdr 3 (length (z :: format :: point)) hb /\ (length point = 2 * k \/ length point = 2 * k + 1).

Lemma public_key_no_copy_sound : forall der pos tl, public_key_no_copy der = Ret (pos, tl) ->
  exists k format point rest, public_key_form der k format point rest /\ pos = format :: point ++ rest /\ tl = S (length point) /\
    (format = 2 \/ format = 3 \/ format = 4)%N.
Proof.
  intros der pos tl E. unfold public_key_no_copy in E.
  apply bind_ret in E. destruct E as ([[p1 l1] n1] & T & E). apply next_tag_inv in T. destruct T as (h1 & -> & H1 & L1 & ->).
  apply bind_ret in E. destruct E as ([[p2 l2] n2] & T & E). apply next_tag_inv in T. destruct T as (h2 & -> & H2 & L2 & ->).
  apply bind_ret in E. destruct E as ([[p3 l3] n3] & T & E). apply next_tag_inv in T. destruct T as (h3 & -> & H3 & L3 & ->).
  destruct (n3 =? length EC_PUBLIC_KEY_OID) eqn:N3; [|discriminate]. cbn [negb] in E. apply Nat.eqb_eq in N3.
  apply bind_ret in E. destruct E as (a & T & E). apply rds_inv in T. destruct T as (p4 & -> & La).
  destruct (same a EC_PUBLIC_KEY_OID) eqn:A; [|discriminate]. cbn [negb] in E. apply same_ok in A.
  apply bind_ret in E. destruct E as (p5 & T & E). apply skip_inv in T. destruct T as (a' & T & La').
  apply app_head in T; [|congruence]. destruct T as (<- & <-). clear La'.
  apply bind_ret in E. destruct E as (l5 & T & E). apply sub_inv in T. destruct T as (L5 & ->).
  apply bind_ret in E. destruct E as ([[p6 l6] ol] & T & E). apply next_tag_inv in T. destruct T as (h6 & -> & H6 & L6 & ->).
  apply bind_ret in E. destruct E as (p7 & T & E). apply skip_inv in T. destruct T as (oid & -> & Lo).
  apply bind_ret in E. destruct E as (l7 & T & E). apply sub_inv in T. destruct T as (L7 & ->).
  apply bind_ret in E. destruct E as ([[p8 l8] n8] & T & E). apply next_tag_inv in T. destruct T as (h8 & -> & H8 & L8 & ->).
  destruct (n8 <? 2) eqn:N8; [discriminate|].
  apply bind_ret in E. destruct E as (p9 & T & E). apply skip_inv in T. destruct T as (z & -> & Lz).
  destruct z as [|z [|]]; try discriminate. clear Lz.
  apply bind_ret in E. destruct E as (n9 & T & E). apply sub_inv in T. destruct T as (_ & ->).
  apply bind_ret in E. destruct E as (f & T & E). apply rd_inv in T. destruct p9 as [|f' p9]; [discriminate|]. cbn [nth_error] in T. inversion T; subst f'. clear T.
  destruct ((f =? 2)%N || (f =? 3)%N || (f =? 4)%N) eqn:F; [|discriminate]. cbn [negb] in E.
  apply bind_ret in E. destruct E as (expected & K & E).
  destruct (ol =? length expected) eqn:OL; [|discriminate]. cbn [negb] in E. apply Nat.eqb_eq in OL.
  apply bind_ret in E. destruct E as (o & T & E). apply rds_inv in T. destruct T as (t & T & Lo').
  destruct (same o expected) eqn:SM; [|discriminate]. apply same_ok in SM. inversion E. subst pos tl. clear E.
  apply app_head in T; [|congruence]. destruct T as (<- & _).
  assert (B: n8 - 2 <= length p9).
  { clear - L8 L1 L2 L3 L5 L6 L7 Lo La N8. rewrite !app_length in *. cbn [length] in *.
    pose proof L8. lia. }
  set (k := (n8 - 1 - 1) / 2) in *.
  assert (C: curve k expected /\ (n8 - 2 = 2 * k \/ n8 - 2 = 2 * k + 1)).
  { split.
    - destruct (k =? 32) eqn:K1; [left; inversion K; split; auto; lia|].
      destruct (k =? 48) eqn:K2; [right; left; inversion K; split; auto; lia|].
      destruct (k =? 66) eqn:K3; [right; right; inversion K; split; auto; lia|]. discriminate.
    - unfold k. replace (n8 - 1 - 1) with (n8 - 2) by lia. pose proof (Nat.div_mod (n8 - 2) 2 ltac:(lia)). pose proof (Nat.mod_upper_bound (n8 - 2) 2 ltac:(lia)). lia. }
  destruct C as (C & Lp). exists k, f, (firstn (n8 - 2) p9), (skipn (n8 - 2) p9).
  assert (Lpt: length (firstn (n8 - 2) p9) = n8 - 2) by (rewrite firstn_length; lia).
  split; [|rewrite firstn_skipn, Lpt; split; auto; split; lia].
  exists h1, h2, (h3 ++ ec_public_key), (h6 ++ oid), h8, oid, z. rewrite <- !app_assoc. cbn [app]. rewrite firstn_skipn.
  split. { rewrite ec_key, <- A. reflexivity. }
  split; [eapply is_hdr_header; eauto|]. split; [eapply is_hdr_header; eauto|].
  split; [apply is_hdr_item; rewrite ec_key, <- N3; auto|]. split; [congruence|].
  split; [apply is_hdr_item; congruence|]. rewrite Lpt. split; auto.
  cbn [length]. rewrite Lpt. replace (S (S (n8 - 2))) with n8 by lia. exact H8.
Qed.

Lemma is_hdr_tlv : forall t (c : list N), is_hdr t (length c) (hdr t (length c)).
Proof. intros. apply is_hdr_hdr. Qed.

Lemma public_key_no_copy_run : forall h1 h2 h3 oid h6 h8 z f point rest n1 n2 k, curve k oid ->
  is_hdr 0x30 n1 h1 -> is_hdr 0x30 n2 h2 -> is_hdr 6 (length ec_public_key) h3 -> is_hdr 6 (length oid) h6 ->
  is_hdr 3 (length (z :: f :: point)) h8 -> (f = 2 \/ f = 3 \/ f = 4)%N -> (length point = 2 * k \/ length point = 2 * k + 1) ->
  n1 <= length (h2 ++ h3 ++ ec_public_key ++ h6 ++ oid ++ h8 ++ (z :: f :: point) ++ rest) ->
  n2 <= length (h3 ++ ec_public_key ++ h6 ++ oid ++ h8 ++ (z :: f :: point) ++ rest) ->
  public_key_no_copy (h1 ++ h2 ++ h3 ++ ec_public_key ++ h6 ++ oid ++ h8 ++ (z :: f :: point) ++ rest) = Ret (f :: point ++ rest, S (length point)).
Proof.
  intros h1 h2 h3 oid h6 h8 z f point rest n1 n2 k C H1 H2 H3 H6 H8 F P B1 B2. unfold public_key_no_copy.
  pose proof (length_is_hdr _ _ _ H1). pose proof (length_is_hdr _ _ _ H2). pose proof (length_is_hdr _ _ _ H3).
  pose proof (length_is_hdr _ _ _ H6). pose proof (length_is_hdr _ _ _ H8).
  assert (E7: length ec_public_key = 7) by reflexivity. assert (Lo: 1 <= length oid <= 8) by (destruct C as [(_ & ->)|[(_ & ->)|(_ & ->)]]; cbn; lia).
  rewrite !app_length in B1. rewrite !app_length in B2. cbn [length] in B1, B2, H8.
  rewrite (next_tag_hdr _ _ _ _ _ H1) by (rewrite !app_length; cbn [length]; lia). cbn [bind].
  rewrite (next_tag_hdr _ _ _ _ _ H2) by (rewrite !app_length; cbn [length]; lia). cbn [bind].
  rewrite (next_tag_hdr _ _ _ _ _ H3) by (rewrite !app_length; cbn [length]; lia). cbn [bind].
  rewrite ec_key in *. rewrite Nat.eqb_refl. cbn [negb]. rewrite rds_app by reflexivity. cbn [bind].
  replace (same EC_PUBLIC_KEY_OID EC_PUBLIC_KEY_OID) with true by (symmetry; now apply same_ok). cbn [negb].
  rewrite skip_app by reflexivity. cbn [bind]. rewrite sub_ok by (rewrite !app_length; cbn [length]; lia). cbn [bind].
  rewrite (next_tag_hdr _ _ _ _ _ H6) by (rewrite !app_length; cbn [length]; lia). cbn [bind].
  rewrite skip_app by reflexivity. cbn [bind]. rewrite sub_ok by (rewrite !app_length; cbn [length]; lia). cbn [bind].
  rewrite (next_tag_hdr _ _ _ _ _ H8) by (rewrite !app_length; cbn [length]; lia). cbn [bind].
  replace (S (S (length point)) <? 2) with false by lia.
  change ((z :: f :: point) ++ rest) with ([z] ++ (f :: point ++ rest)). rewrite skip_app by reflexivity. cbn [bind].
  rewrite sub_ok by lia. cbn [bind]. unfold rd. cbn [nth_error bind]. replace (negb _) with false by lia.
  replace ((S (S (length point)) - 1 - 1) / 2) with k.
  2: { replace (S (S (length point)) - 1 - 1) with (length point) by lia. destruct P as [-> | ->].
       - rewrite Nat.mul_comm, Nat.div_mul by lia. auto.
       - rewrite Nat.mul_comm, Nat.div_add_l by lia. cbn. lia. }
  unfold curve in C. rewrite curve_256, curve_384, curve_521 in C.
  replace (if k =? 32 then Ret P256_OID else if k =? 48 then Ret P384_OID else if k =? 66 then Ret P521_OID else Err) with (Ret oid)
    by (destruct C as [(-> & ->)|[(-> & ->)|(-> & ->)]]; reflexivity).
  cbn [bind]. rewrite Nat.eqb_refl. cbn [negb]. rewrite rds_app by reflexivity. cbn [bind].
  replace (same oid oid) with true by (symmetry; now apply same_ok). replace (S (S (length point)) - 1) with (S (length point)) by lia. reflexivity.
Qed.

(** ** No access outside *)
Definition safe {A} (x : res A) (Q : A -> Prop) : Prop := match x with Ret a => Q a | Err => True | Over => False end.

Lemma safe_bind : forall A B (x : res A) (f : A -> res B) (Q : A -> Prop) (R : B -> Prop),
  safe x Q -> (forall a, Q a -> safe (f a) R) -> safe (bind x f) R.
Proof. intros A B [a| |] f Q R H F; cbn in *; auto. Qed.

Lemma safe_next : forall type der len, len <= length der ->
  safe (next_tag type der len) (fun '(rest, l, n) => n <= l /\ l <= length rest).
Proof.
  intros type der len L. destruct (next_tag_spec type der len L) as [->|(h & rest & n & -> & _ & B & ->)]; cbn; auto. rewrite app_length in L. lia.
Qed.

Lemma safe_skip : forall l n, n <= length l -> safe (skip l n) (fun t => length t = length l - n).
Proof. intros l n L. rewrite skip_ok by auto. cbn. now rewrite skipn_length. Qed.
Lemma safe_rds : forall l n, n <= length l -> safe (rds l n) (fun t => length t = n).
Proof. intros l n L. rewrite rds_ok by auto. cbn. rewrite firstn_length. lia. Qed.
Lemma safe_sub : forall a b, b <= a -> safe (sub a b) (fun t => t = a - b).
Proof. intros a b L. rewrite sub_ok by auto. reflexivity. Qed.
Lemma safe_rd : forall l i, i < length l -> safe (rd l i) (fun _ => True).
Proof. intros l i L. rewrite (rd_ok l i 0%N) by auto. exact I. Qed.

Lemma safe_weaken : forall A (x : res A) (Q R : A -> Prop), safe x Q -> (forall a, Q a -> R a) -> safe x R.
Proof. intros A [a| |] Q R H F; cbn in *; auto. Qed.

Ltac sstep :=
  match goal with
  | |- safe (bind (next_tag _ _ _) _) _ => eapply safe_bind; [apply safe_next; lia|intros [[? ?] ?] [? ?]; cbn beta in *]
  | |- safe (bind (skip _ _) _) _ => eapply safe_bind; [apply safe_skip; lia|cbn beta; intros ? ?]
  | |- safe (bind (rds _ _) _) _ => eapply safe_bind; [apply safe_rds; lia|cbn beta; intros ? ?]
  | |- safe (bind (sub _ _) _) _ => eapply safe_bind; [apply safe_sub; lia|cbn beta; intros ? ?]
  | |- safe (bind (rd _ _) _) _ => eapply safe_bind; [apply safe_rd; lia|intros ? _]
  | |- safe (if negb ?c then Err else _) _ => destruct c eqn:?; cbn [negb]; [|exact I]
  | |- safe (if ?c then Err else _) _ => destruct c eqn:?; [exact I|]
  end.

Lemma public_key_no_copy_safe : forall der, safe (public_key_no_copy der) (fun '(pos, tl) => 1 <= tl <= length pos).
Proof.
  intros der. unfold public_key_no_copy. repeat sstep.
  eapply safe_bind with (Q := fun _ => True).
  { destruct (_ =? 32); [exact I|]. destruct (_ =? 48); [exact I|]. destruct (_ =? 66); exact I. }
  intros expected _. repeat sstep. match goal with |- safe (if ?c then _ else _) _ => destruct c end; cbn; auto. lia.
Qed.

Lemma decode_public_key_safe : forall der room, safe (decode_public_key der room) (fun '(x, y) => length x = length y /\ length x <= room).
Proof.
  intros der room. unfold decode_public_key. eapply safe_bind; [apply public_key_no_copy_safe|]. intros [pos tl] L.
  pose proof (Nat.mul_div_le (tl - 1) 2 ltac:(lia)). set (kl := (tl - 1) / 2) in *. clearbody kl. repeat sstep. cbn. lia.
Qed.

(** What a decoded public key was decoded from *)
Lemma decode_public_key_sound : forall der room x y, decode_public_key der room = Ret (x, y) ->
  exists k point rest pad, public_key_form der k 4 point rest /\ point = x ++ y ++ pad /\ length x = k /\ length y = k /\ length pad <= 1 /\ k <= room.
Proof.
  intros der room x y E. unfold decode_public_key in E.
  apply bind_ret in E. destruct E as ([pos tl] & T & E). apply public_key_no_copy_sound in T.
  destruct T as (k & f & point & rest & F & -> & -> & _).
  apply bind_ret in E. destruct E as (f' & T & E). apply rd_inv in T. cbn [nth_error] in T. inversion T; subst f'. clear T.
  destruct (f =? 4)%N eqn:F4; [|discriminate]. apply N.eqb_eq in F4. subst f. cbn [negb] in E.
  apply bind_ret in E. destruct E as (p2 & T & E). unfold skip in T. cbn [length Nat.leb skipn] in T. inversion T. subst p2. clear T.
  assert (KL: (S (length point) - 1) / 2 = k).
  { replace (S (length point) - 1) with (length point) by lia. destruct F as (? & ? & ? & ? & ? & ? & ? & _ & _ & _ & _ & _ & _ & _ & P).
    destruct P as [-> | ->]; [rewrite Nat.mul_comm, Nat.div_mul by lia; auto|rewrite Nat.mul_comm, Nat.div_add_l by lia; cbn; lia]. }
  rewrite KL in E. destruct (room <? k) eqn:R; [discriminate|].
  apply bind_ret in E. destruct E as (x' & T & E). apply rds_inv in T. destruct T as (t1 & T1 & Lx).
  apply bind_ret in E. destruct E as (p3 & T & E). apply skip_inv in T. destruct T as (x2 & T & Lx2). rewrite T1 in T. apply app_head in T; [|congruence].
  destruct T as (<- & ->).
  apply bind_ret in E. destruct E as (y' & T & E). apply rds_inv in T. destruct T as (t2 & -> & Ly). inversion E; subst x' y'. clear E.
  assert (P: length point = 2 * k \/ length point = 2 * k + 1) by (destruct F as (? & ? & ? & ? & ? & ? & ? & _ & _ & _ & _ & _ & _ & _ & P); auto).
  exists k, point, rest, (skipn (2 * k) point). split; auto.
  assert (D: firstn (2 * k) point = x ++ y).
  { assert (A: point ++ rest = (x ++ y) ++ t2) by (rewrite T1, <- app_assoc; auto).
    rewrite <- (firstn_skipn (2 * k) point), <- app_assoc in A. apply app_head in A; [tauto|]. rewrite firstn_length, app_length. lia. }
  split; [rewrite app_assoc, <- D, firstn_skipn; auto|]. split; auto. split; auto. split; [rewrite skipn_length; lia|lia].
Qed.

Lemma decode_public_key_der : forall k oid x y rest room, curve k oid -> length x = k -> length y = k -> k <= room ->
  decode_public_key (public_key_der oid x y ++ rest) room = Ret (x, y).
Proof.
  intros k oid x y rest room C Lx Ly R. unfold decode_public_key.
  assert (Lo: 1 <= length oid <= 8) by (destruct C as [(_ & ->)|[(_ & ->)|(_ & ->)]]; cbn; lia).
  assert (E: public_key_der oid x y ++ rest =
    hdr 0x30 (length (tlv 0x30 (tlv 6 ec_public_key ++ tlv 6 oid) ++ tlv 3 (0 :: 4 :: x ++ y)%N)) ++
    hdr 0x30 (length (tlv 6 ec_public_key ++ tlv 6 oid)) ++ hdr 6 (length ec_public_key) ++ ec_public_key ++ hdr 6 (length oid) ++ oid ++
    hdr 3 (length (0 :: 4 :: x ++ y)%N) ++ (0 :: 4 :: x ++ y)%N ++ rest).
  { unfold public_key_der. rewrite !tlv_hdr, <- !app_assoc. reflexivity. }
  rewrite E. clear E.
  rewrite (public_key_no_copy_run _ _ _ oid _ _ 0%N 4%N (x ++ y) rest _ _ k C (is_hdr_hdr _ _) (is_hdr_hdr _ _) (is_hdr_hdr _ _) (is_hdr_hdr _ _) (is_hdr_hdr _ _));
    auto.
  - cbn [bind]. unfold rd. cbn [nth_error bind N.eqb Pos.eqb negb]. unfold skip at 1. cbn [length Nat.leb skipn bind].
    replace ((S (length (x ++ y)) - 1) / 2) with k.
    2: { rewrite app_length, Lx, Ly. replace (S (k + k) - 1) with (k * 2) by lia. rewrite Nat.div_mul; auto. }
    replace (room <? k) with false by lia. rewrite <- app_assoc. rewrite rds_app by auto. cbn [bind]. rewrite skip_app by auto. cbn [bind]. rewrite rds_app by auto. reflexivity.
  - rewrite app_length. lia.
  - rewrite !tlv_hdr, !app_length. lia.
  - rewrite !tlv_hdr, !app_length. lia.
Qed.

(** ** Private keys *)
Lemma private_key_form_inv : forall pos tl pos' kl oid, private_key_form pos tl = Ret (pos', kl, oid) ->
  (tl = kl /\ pos' = pos /\ (curve kl oid \/ kl = 65 /\ curve 66 oid)) \/
  (tl = S kl /\ pos = 0%N :: pos' /\ curve kl oid /\ (kl = 32 \/ kl = 48)).
Proof.
  intros pos tl pos' kl oid E. unfold private_key_form in E.
  assert (Pad: forall o, (z <- rd pos 0; if negb (z =? 0)%N then Err else pos <- skip pos 1; t <- sub tl 1; Ret (pos, t, o)) = Ret (pos', kl, oid) -> 0 < tl ->
               tl = S kl /\ pos = 0%N :: pos' /\ oid = o).
  { intros o X T. apply bind_ret in X. destruct X as (z & Z & X). apply rd_inv in Z. destruct pos as [|z' pos]; [discriminate|]. cbn [nth_error] in Z. inversion Z; subst z'. clear Z.
    destruct (z =? 0)%N eqn:Z; [|discriminate]. apply N.eqb_eq in Z. subst z. cbn [negb] in X. unfold skip in X. cbn [length Nat.leb skipn bind] in X.
    rewrite sub_ok in X by lia. cbn [bind] in X. inversion X; subst. split; [lia|auto]. }
  destruct (tl =? 33) eqn:T1. { right. destruct (Pad _ E) as (A & B & C); [lia|]. split; auto. split; auto. assert (kl = 32) by lia. subst. split; [left|]; auto. }
  destruct (tl =? 32) eqn:T2. { left. inversion E; subst. split; auto. split; auto. left. left. split; auto. lia. }
  destruct (tl =? 49) eqn:T3. { right. destruct (Pad _ E) as (A & B & C); [lia|]. split; auto. split; auto. assert (kl = 48) by lia. subst. split; [right; left|]; auto. }
  destruct (tl =? 48) eqn:T4. { left. inversion E; subst. split; auto. split; auto. left. right; left. split; auto. lia. }
  destruct ((tl =? 65) || (tl =? 66)) eqn:T5; [|discriminate]. left. inversion E; subst. split; auto. split; auto.
  destruct (kl =? 65) eqn:T6; [right; split; [lia|right; right; auto]|]. left. right; right. split; auto. lia.
Qed.

(** What a private key looks like to the decoder; [c] is the octet string. *)
Definition private_key_data (der : list N) (k : nat) (c rest : list N) : Prop :=
  exists h ev ed ha eo oid, der = h ++ ev ++ ed ++ ha ++ eo ++ rest /\
    short_header 0x30 h /\ short_item 2 [1%N] ev /\ short_item 4 c ed /\ short_header 0xa0 ha /\ curve k oid /\ short_item 6 oid eo.

Lemma curve_length : forall k oid, curve k oid -> k = 32 \/ k = 48 \/ k = 66.
Proof. intros k oid [(-> & _)|[(-> & _)|(-> & _)]]; auto. Qed.

Lemma decode_private_key_sound : forall der room d, decode_private_key der room = Ret d ->
  exists c rest, private_key_data der (length d) c rest /\ length d <= room /\
    (c = d \/ c = 0%N :: d /\ length d < 66 \/ d = 0%N :: c /\ length d = 66).
Proof.
  intros der room d E. unfold decode_private_key in E.
  apply bind_ret in E. destruct E as ([key kl] & P & E). unfold private_key_no_copy in P.
  apply bind_ret in P. destruct P as ([[p1 l1] n1] & T & P). apply next_tag_inv in T. destruct T as (h1 & -> & H1 & L1 & ->).
  apply bind_ret in P. destruct P as ([[p2 l2] n2] & T & P). apply next_tag_inv in T. destruct T as (h2 & -> & H2 & L2 & ->).
  destruct (n2 =? 1) eqn:N2; [|discriminate]. cbn [negb] in P. apply Nat.eqb_eq in N2. subst n2.
  apply bind_ret in P. destruct P as (v & T & P). apply rd_inv in T. destruct p2 as [|v' p2]; [discriminate|]. cbn [nth_error] in T. inversion T; subst v'. clear T.
  destruct (v =? 1)%N eqn:V; [|discriminate]. apply N.eqb_eq in V. subst v. cbn [negb] in P.
  apply bind_ret in P. destruct P as (p3 & T & P). unfold skip in T. cbn [length Nat.leb skipn] in T. inversion T. subst p3. clear T.
  apply bind_ret in P. destruct P as (l3 & T & P). apply sub_inv in T. destruct T as (L3 & ->).
  apply bind_ret in P. destruct P as ([[p4 l4] n4] & T & P). apply next_tag_inv in T. destruct T as (h4 & -> & H4 & L4 & ->).
  apply bind_ret in P. destruct P as ([[p5 tl] oid] & F & P). apply private_key_form_inv in F.
  apply bind_ret in P. destruct P as (p6 & T & P). apply skip_inv in T. destruct T as (k & -> & Lk).
  apply bind_ret in P. destruct P as (l6 & T & P). apply sub_inv in T. destruct T as (L6 & ->).
  apply bind_ret in P. destruct P as ([[p7 l7] n7] & T & P). apply next_tag_inv in T. destruct T as (h7 & -> & H7 & L7 & ->).
  apply bind_ret in P. destruct P as ([[p8 l8] n8] & T & P). apply next_tag_inv in T. destruct T as (h8 & -> & H8 & L8 & ->).
  destruct (n8 =? length oid) eqn:N8; [|discriminate]. cbn [negb] in P. apply Nat.eqb_eq in N8. subst n8.
  apply bind_ret in P. destruct P as (o & T & P). apply rds_inv in T. destruct T as (rest & -> & Lo).
  destruct (same o oid) eqn:SM; [|discriminate]. apply same_ok in SM. subst o. inversion P; subst key kl. clear P.
  assert (X: forall q c, curve q oid -> p4 = c ++ h7 ++ h8 ++ oid ++ rest -> length c = n4 ->
            private_key_data (h1 ++ h2 ++ 1%N :: h4 ++ p4) q c rest).
  { intros q c C -> Lc. exists h1, (h2 ++ [1%N]), (h4 ++ c), h7, (h8 ++ oid), oid. rewrite <- !app_assoc. split; auto.
    split; [eapply is_hdr_header; eauto|]. split; [apply is_hdr_item; auto|]. split; [apply is_hdr_item; congruence|].
    split; [eapply is_hdr_header; eauto|]. split; auto. apply is_hdr_item; auto. }
  assert (Lk2: length k = tl) by exact Lk.
  destruct F as [(-> & <- & [C|(-> & C)])|(-> & -> & C & K)].
  - pose proof (curve_length _ _ C) as CL. replace (tl =? 65) with false in E by lia.
    destruct (tl <=? room) eqn:R; [|discriminate]. rewrite rds_app in E by auto. inversion E; subst d.
    exists k, rest. rewrite Lk2. split; [apply X; auto|]. split; [lia|auto].
  - cbn [Nat.eqb] in E. destruct (66 <=? room) eqn:R; [|discriminate]. rewrite rds_app in E by auto. cbn [bind] in E. inversion E; subst d. cbn [length].
    exists k, rest. rewrite Lk2. split; [apply X; auto|]. split; [lia|auto].
  - replace (tl =? 65) with false in E by lia. destruct (tl <=? room) eqn:R; [|discriminate]. rewrite rds_app in E by auto. inversion E; subst d.
    exists (0%N :: k), rest. rewrite Lk2. split; [apply X; auto; cbn [length]; lia|]. split; [lia|]. right. left. split; auto. lia.
Qed.

(** An access outside takes a padded key. *)
Lemma private_key_form_safe : forall pos tl, tl <= length pos -> private_key_form pos tl <> Over.
Proof.
  intros pos tl L E. unfold private_key_form in E.
  assert (Pad: forall o, 0 < tl -> (z <- rd pos 0; if negb (z =? 0)%N then Err else pos <- skip pos 1; t <- sub tl 1; Ret (pos, t, o)) <> (Over : res (list N * nat * list N))).
  { intros o T X. destruct pos as [|z pos]; [cbn in L; lia|]. unfold rd, skip in X. cbn [nth_error bind length Nat.leb skipn] in X. destruct (negb _); [discriminate|].
    rewrite sub_ok in X by lia. discriminate. }
  destruct (tl =? 33) eqn:T1. { apply Pad in E; [auto|lia]. } destruct (tl =? 32); [discriminate|].
  destruct (tl =? 49) eqn:T2. { apply Pad in E; [auto|lia]. } destruct (tl =? 48); [discriminate|]. destruct (_ || _); discriminate.
Qed.

Lemma decode_private_key_over : forall der room, decode_private_key der room = Over ->
  exists h ev hd key rest, der = h ++ ev ++ hd ++ (0%N :: key) ++ rest /\ short_header 0x30 h /\ short_item 2 [1%N] ev /\
    is_hdr 4 (S (length key)) hd /\ (length key = 32 \/ length key = 48).
Proof.
  intros der room E.
  assert (P: private_key_no_copy der = Over \/ exists key kl, private_key_no_copy der = Ret (key, kl) /\ (length key < kl)).
  { unfold decode_private_key in E. destruct (private_key_no_copy der) as [[key kl]| |] eqn:P; auto; [|discriminate]. cbn [bind] in E.
    right. exists key, kl. split; auto. destruct (_ <=? room); [|discriminate].
    unfold rds in E. destruct (kl =? 65).
    - destruct (kl <=? length key) eqn:L; [discriminate|lia].
    - destruct (kl <=? length key) eqn:L; [discriminate|lia]. }
  clear E.
  assert (Q: safe (private_key_no_copy der) (fun '(key, kl) => kl <= length key) \/
             exists h ev hd key rest, der = h ++ ev ++ hd ++ (0%N :: key) ++ rest /\ short_header 0x30 h /\ short_item 2 [1%N] ev /\
               is_hdr 4 (S (length key)) hd /\ (length key = 32 \/ length key = 48)).
  2: { destruct Q as [Q|Q]; auto. destruct P as [P|(key & kl & P & L)]; rewrite P in Q; cbn in Q; [contradiction|lia]. }
  clear P. unfold private_key_no_copy.
  destruct (next_tag_spec 0x30 der (length der) (le_n _)) as [->|(h1 & p1 & n1 & -> & H1 & L1 & ->)]; [left; exact I|]. cbn [bind].
  rewrite app_length in *. replace (length h1 + length p1 - length h1) with (length p1) by lia.
  destruct (next_tag_spec 2 p1 (length p1) (le_n _)) as [->|(h2 & p2 & n2 & -> & H2 & L2 & ->)]; [left; exact I|]. cbn [bind].
  rewrite app_length in *. replace (length h2 + length p2 - length h2) with (length p2) by lia.
  destruct (n2 =? 1) eqn:N2; cbn [negb]; [|left; exact I]. apply Nat.eqb_eq in N2. subst n2.
  destruct p2 as [|v p2]; [cbn [length] in L2; lia|]. unfold rd. cbn [nth_error bind]. destruct (v =? 1)%N eqn:V; cbn [negb]; [|left; exact I]. apply N.eqb_eq in V. subst v.
  unfold skip at 1. cbn [length Nat.leb skipn bind]. rewrite sub_ok by lia. cbn [bind]. rewrite Nat.sub_succ, Nat.sub_0_r.
  destruct (next_tag_spec 4 p2 (length p2) (le_n _)) as [->|(h4 & p4 & n4 & -> & H4 & L4 & ->)]; [left; exact I|]. cbn [bind].
  rewrite app_length in *. replace (length h4 + length p4 - length h4) with (length p4) by lia.
  destruct (private_key_form p4 n4) as [[[p5 tl] oid]| |] eqn:F; [|left; exact I|exfalso; eapply private_key_form_safe; [|exact F]; lia].
  apply private_key_form_inv in F. destruct F as [(-> & -> & _)|(-> & -> & _ & K)].
  - left. cbn [bind]. repeat sstep. match goal with |- safe (if ?c then _ else _) _ => destruct c end; cbn; auto. lia.
  - right. cbn [length] in L4. exists h1, (h2 ++ [1%N]), h4, (firstn tl p5), (skipn tl p5).
    assert (Lk: length (firstn tl p5) = tl) by (rewrite firstn_length; lia). rewrite Lk.
    split. { rewrite <- !app_assoc. cbn [app]. now rewrite firstn_skipn. }
    split; [eapply is_hdr_header; eauto|]. split; [apply is_hdr_item; auto|]. split; auto.
Qed.

Lemma decode_private_key_der : forall k oid d pub rest room, curve k oid -> length d = k -> k <= room ->
  decode_private_key (private_key_der oid d pub ++ rest) room = Ret d.
Proof.
  intros k oid d pub rest room C Ld R. unfold decode_private_key.
  set (tail := match pub with Some (x, y) => tlv 0xa1 (tlv 3 (0 :: 4 :: x ++ y)%N) | None => [] end).
  pose proof (curve_length _ _ C) as CL.
  assert (Lo: 1 <= length oid <= 8) by (destruct C as [(_ & ->)|[(_ & ->)|(_ & ->)]]; cbn; lia).
  assert (E: private_key_der oid d pub ++ rest =
    hdr 0x30 (length (tlv 2 [1%N] ++ tlv 4 d ++ tlv 0xa0 (tlv 6 oid) ++ tail)) ++ hdr 2 1 ++ (1%N :: hdr 4 (length d) ++ d ++
    hdr 0xa0 (length (tlv 6 oid)) ++ hdr 6 (length oid) ++ oid ++ tail ++ rest)).
  { unfold private_key_der. fold tail. rewrite !tlv_hdr, <- !app_assoc. reflexivity. }
  rewrite E. clear E. unfold private_key_no_copy.
  assert (HL: forall t n, 2 <= length (hdr t n) <= 3) by (intros; apply (length_is_hdr t n), is_hdr_hdr).
  set (n1 := length (tlv 2 [1%N] ++ tlv 4 d ++ tlv 0xa0 (tlv 6 oid) ++ tail)).
  pose proof (HL 4%N (length d)) as A2. pose proof (HL 0xa0%N (length (tlv 6 oid))) as A3. pose proof (HL 6%N (length oid)) as A4.
  pose proof (length_tlv 6 oid) as LT. replace (length oid <? 128) with true in LT by lia.
  set (n6 := length (tlv 6 oid)) in *.
  assert (B1: n1 <= 3 + (length (hdr 4 (length d)) + (length d + (length (hdr 0xa0 n6) + (length (hdr 6 (length oid)) + (length oid + length tail)))))).
  { unfold n1. rewrite !app_length, (tlv_hdr 4), (tlv_hdr 0xa0), !app_length. fold n6. rewrite LT. cbn [length tlv len_octets Nat.ltb Nat.leb app]. lia. }
  clearbody n1. pose proof (HL 0x30%N n1) as A1.
  rewrite (next_tag_hdr 0x30 _ _ _ _ (is_hdr_hdr _ _)).
  2,3,4: rewrite ?(app_length (hdr 0x30 n1)); change (hdr 2 1) with [2; 1]%N; cbn [app length]; rewrite ?app_length; cbn [length]; lia.
  cbn [bind]. rewrite app_length.
  set (h1 := hdr 0x30 _) in *. clearbody h1. replace (length h1 + _ - length h1) with (length (hdr 2 1 ++ 1%N :: hdr 4 (length d) ++ d ++
    hdr 0xa0 n6 ++ hdr 6 (length oid) ++ oid ++ tail ++ rest)) by lia.
  rewrite (next_tag_hdr 2 _ _ _ _ (is_hdr_hdr _ _)) by (rewrite ?app_length; cbn [length hdr len_octets Nat.ltb Nat.leb]; rewrite ?app_length; lia).
  cbn [bind]. rewrite app_length. replace (length (hdr 2 1) + _ - length (hdr 2 1)) with (length (1%N :: hdr 4 (length d) ++ d ++
    hdr 0xa0 n6 ++ hdr 6 (length oid) ++ oid ++ tail ++ rest)) by lia.
  cbn [Nat.eqb negb]. unfold rd. cbn [nth_error bind N.eqb Pos.eqb negb]. unfold skip at 1. cbn [length Nat.leb skipn bind]. rewrite sub_ok by lia. cbn [bind].
  rewrite Nat.sub_succ, Nat.sub_0_r.
  rewrite (next_tag_hdr 4 _ _ _ _ (is_hdr_hdr _ _)) by (rewrite !app_length; lia). cbn [bind].
  rewrite !app_length.
  assert (F: private_key_form (d ++ hdr 160 n6 ++ hdr 6 (length oid) ++ oid ++ tail ++ rest) (length d)
             = Ret (d ++ hdr 160 n6 ++ hdr 6 (length oid) ++ oid ++ tail ++ rest, length d, oid)).
  { unfold private_key_form. unfold curve in C. rewrite curve_256, curve_384, curve_521 in C. rewrite Ld. destruct C as [(-> & ->)|[(-> & ->)|(-> & ->)]]; reflexivity. }
  rewrite F. cbn [bind]. clear F. rewrite skip_app by auto. cbn [bind]. rewrite sub_ok by lia. cbn [bind].
  rewrite (next_tag_hdr 0xa0 _ _ _ _ (is_hdr_hdr _ _)) by (rewrite ?app_length; lia). cbn [bind].
  rewrite (next_tag_hdr 6 _ _ _ _ (is_hdr_hdr _ _)) by (rewrite ?app_length; lia). cbn [bind].
  rewrite Nat.eqb_refl. cbn [negb]. rewrite rds_app by auto. cbn [bind]. replace (same oid oid) with true by (symmetry; now apply same_ok).
  cbn [bind]. replace (length d =? 65) with false by lia. replace (length d <=? room) with true by lia. apply rds_app; auto.
Qed.
