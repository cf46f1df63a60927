(** Proofs about the block store. *)
From Coq Require Import List NArith Lia Bool Arith ZifyBool ZifyNat ZifyN.
From Verif Require Import Base Flash_Base FlashUtil_Model FlashUtil_Proofs FlashUpdater_Model FlashStore_Model.
Import ListNotations.
Local Open Scope N_scope.

(** Products of block numbers and block sizes. *)
Lemma mul_below : forall i b n, i < n -> i * b <= b * (n - 1) /\ i * b + b <= b * n /\ b * (n - 1) + b = b * n.
Proof.
  intros i b n H.
  assert (b * n = b * (n - 1) + b) by (replace n with (n - 1 + 1) at 1 by lia; rewrite N.mul_add_distr_l; lia).
  assert (i * b <= b * (n - 1)) by (rewrite N.mul_comm; apply N.mul_le_mono_l; lia).
  set (u := i * b) in *. set (w := b * (n - 1)) in *. set (t := b * n) in *. clearbody u w t. lia.
Qed.

Lemma mul_apart : forall i j b, i < j -> i * b + b <= j * b.
Proof. intros i j b H. replace (i * b + b) with ((i + 1) * b) by lia. apply N.mul_le_mono_r. lia. Qed.

Ltac splits := repeat match goal with |- _ /\ _ => split end.

(** * Pieces of a byte stream *)
Definition piece (S : list N) (w : N * list N) : Prop :=
  let '(o, d) := w in
  (N.to_nat o + length d <= length S)%nat /\ forall i, (i < length d)%nat -> nth i d 0 = nth (N.to_nat o + i) S 0.

Definition covers (ws : list (N * list N)) (x : nat) : Prop :=
  exists o d, In (o, d) ws /\ (N.to_nat o <= x < N.to_nat o + length d)%nat.

Lemma piece_app : forall S o d1 d2, piece S (o, d1) -> piece S (o + N.of_nat (length d1), d2) -> piece S (o, d1 ++ d2).
Proof.
  intros S o d1 d2 (A1 & A2) (B1 & B2). split; rewrite app_length; [lia|].
  intros i Hi. destruct (Nat.lt_ge_cases i (length d1)).
  - rewrite app_nth1 by auto. auto.
  - rewrite app_nth2 by auto. rewrite B2 by lia. f_equal. lia.
Qed.

Lemma piece_nil : forall S o, (N.to_nat o <= length S)%nat -> piece S (o, []).
Proof. intros. split; cbn; [lia|]. intros. lia. Qed.

Lemma piece_window : forall pre l post o n x, (o + n <= length l)%nat -> N.to_nat x = (length pre + o)%nat ->
  piece (pre ++ l ++ post) (x, window o n l).
Proof.
  intros pre l post o n x H Hx.
  assert (Hl: length (window o n l) = n) by (rewrite length_window; lia).
  split; rewrite Hl, Hx; [rewrite !app_length; lia|].
  intros i Hi. rewrite nth_window by auto. rewrite app_nth2 by lia. rewrite app_nth1 by lia. f_equal. lia.
Qed.

Lemma window_skipn : forall (l : list N) n, skipn n l = window n (length l - n) l.
Proof. intros. unfold window. rewrite firstn_all2; auto. rewrite skipn_length. lia. Qed.

Lemma len_window : forall (l : list N) o n, (o + n <= length l)%nat -> length (window o n l) = n.
Proof. intros. rewrite length_window. lia. Qed.

(** The three parts of the stored stream. *)
Lemma piece_header : forall h d e n x, (n <= length h)%nat -> N.to_nat x = 0%nat -> piece (h ++ d ++ e) (x, firstn n h).
Proof. intros. apply (piece_window [] h (d ++ e) 0 n); cbn; lia. Qed.

Lemma piece_data : forall h d e o n x, (o + n <= length d)%nat -> N.to_nat x = (length h + o)%nat ->
  piece (h ++ d ++ e) (x, window o n d).
Proof. intros. now apply piece_window. Qed.

Lemma piece_extra : forall h d e o n x, (o + n <= length e)%nat -> N.to_nat x = (length h + length d + o)%nat ->
  piece (h ++ d ++ e) (x, window o n e).
Proof.
  intros. replace (h ++ d ++ e) with ((h ++ d) ++ e ++ []) by (rewrite app_nil_r, app_assoc; auto).
  apply piece_window; auto. rewrite app_length. auto.
Qed.

Definition writes_ok (S : list N) (ws : list (N * list N)) : Prop :=
  Forall (piece S) ws /\ forall x, (x < length S)%nat -> covers ws x.

Lemma plain_writes_ok : forall s data extra,
  writes_ok (header_bytes s (N.of_nat (length data)) ++ data ++ extra) (plain_writes s data extra).
Proof.
  intros s data extra. unfold plain_writes. set (h := header_bytes s (N.of_nat (length data))).
  assert (Hf: fs_variable s = false -> h = []).
  { unfold h, header_bytes. intros ->. reflexivity. }
  assert (PD: piece (h ++ data ++ extra) (N.of_nat (length h), data)).
  { rewrite <- (window_all data) at 2. apply piece_data; lia. }
  assert (PE: piece (h ++ data ++ extra) (N.of_nat (length h) + N.of_nat (length data), extra)).
  { rewrite <- (window_all extra) at 2. apply piece_extra; lia. }
  assert (PH: piece (h ++ data ++ extra) (0, h)).
  { rewrite <- (firstn_all h) at 2. apply piece_header; lia. }
  split.
  - apply Forall_app. split; [repeat constructor; apply PD|]. apply Forall_app. split.
    + destruct extra; constructor; auto.
    + destruct (fs_variable s); constructor; auto.
  - intros x Hx. rewrite !app_length in Hx. destruct (Nat.lt_ge_cases x (length h)).
    + destruct (fs_variable s); [|rewrite Hf in * by auto; cbn in *; lia].
      exists 0, h. split; [|lia]. apply in_or_app. right. apply in_or_app. right. now left.
    + destruct (Nat.lt_ge_cases x (length h + length data)).
      * exists (N.of_nat (length h)), data. split; [now left|lia].
      * destruct extra as [|e0 er]; [cbn in Hx; lia|].
        exists (N.of_nat (length h) + N.of_nat (length data)), (e0 :: er). split; [|lia].
        apply in_or_app. right. apply in_or_app. left. now left.
Qed.

Lemma covers_dec : forall ws x, covers ws x \/
  Forall (fun w => ~ (N.to_nat (fst w) <= x < N.to_nat (fst w) + length (snd w))%nat) ws.
Proof.
  induction ws as [|[o d] ws IH]; intros x; [right; constructor|].
  destruct (IH x) as [(o' & d' & I & C)|F]; [left; exists o', d'; split; [now right|auto]|].
  destruct (Nat.le_gt_cases (N.to_nat o) x); [destruct (Nat.lt_ge_cases x (N.to_nat o + length d))|].
  - left. exists o, d. split; [now left|lia].
  - right. constructor; cbn; auto; lia.
  - right. constructor; cbn; auto; lia.
Qed.

Lemma buffered_writes_ok : forall s p data extra, data <> [] ->
  (length (header_bytes s (N.of_nat (length data))) < p)%nat ->
  (fs_variable s = true -> (0 < length (header_bytes s (N.of_nat (length data))))%nat) ->
  writes_ok (header_bytes s (N.of_nat (length data)) ++ data ++ extra) (buffered_writes s p data extra).
Proof.
  intros s p data extra Hd Hp Hv. unfold buffered_writes.
  assert (Hf: fs_variable s = false -> length (header_bytes s (N.of_nat (length data))) = 0%nat).
  { unfold header_bytes. intros ->. reflexivity. }
  set (h := header_bytes s (N.of_nat (length data))) in *.
  assert (HL: (0 < length data)%nat) by (destruct data; [congruence|cbn; lia]).
  pose proof (Nat.div_mod (length data + length h) p ltac:(lia)) as DM.
  pose proof (Nat.mod_upper_bound (length data + length h) p ltac:(lia)) as MB.
  set (k := ((length data + length h) / p)%nat) in *.
  set (r := ((length data + length h) mod p)%nat) in *.
  assert (K: (k = 0 \/ k = 1 \/ (2 * p <= p * k))%nat) by nia.
  set (pk := (p * k)%nat) in *.
  assert (K': (pk = 0 \/ pk = p \/ 2 * p <= pk)%nat) by (unfold pk; destruct K as [-> | [-> | ]]; lia).
  clearbody pk r. clear K k.
  assert (PD: forall o n x, (o + n <= length data)%nat -> N.to_nat x = (length h + o)%nat ->
    piece (h ++ data ++ extra) (x, window o n data)) by (intros; now apply piece_data).
  assert (PE: forall o n x, (o + n <= length extra)%nat -> N.to_nat x = (length h + length data + o)%nat ->
    piece (h ++ data ++ extra) (x, window o n extra)) by (intros; now apply piece_extra).
  assert (PH: forall x, N.to_nat x = 0%nat -> piece (h ++ data ++ extra) (x, h)).
  { intros. rewrite <- (firstn_all h) at 2. apply piece_header; lia. }
  assert (LS: length (h ++ data ++ extra) = (length h + length data + length extra)%nat) by (rewrite !app_length; lia).
  set (S := h ++ data ++ extra) in *. clearbody S. clearbody h.
  assert (FE: forall n, firstn n extra = window 0 n extra) by reflexivity.
  assert (FD: forall n, firstn n data = window 0 n data) by reflexivity.
  assert (SE: forall n, skipn n extra = window n (length extra - n) extra) by (intros; apply window_skipn).
  assert (V: (fs_variable s = true /\ 0 < length h \/ fs_variable s = false /\ length h = 0)%nat)
    by (destruct (fs_variable s); auto).
  clear Hv Hf.
  destruct (Nat.ltb_spec r (length data)); destruct V as [(V & Hh)|(V & Hh)]; rewrite V;
  repeat (cbv beta iota zeta; match goal with
    | |- context [ (?a <? ?b)%nat ] => destruct (Nat.ltb_spec a b); try lia
    | |- context [ (?a =? ?b)%nat ] => destruct (Nat.eqb_spec a b); try lia
    end); cbn [negb andb app];
  repeat rewrite ?FE, ?FD, ?SE, ?app_nil_r;
  (split; [
    repeat (apply Forall_cons || apply Forall_nil);
    repeat match goal with
      | |- piece _ (_, _ ++ _) => apply piece_app
      | |- piece _ (_, window _ _ data) => apply PD
      | |- piece _ (_, window _ _ extra) => apply PE
      | |- piece _ (_, h) => apply PH
      end; rewrite ?app_length, ?len_window by lia; try lia
   | intros x Hx; rewrite LS in Hx;
     match goal with |- covers ?ws x => destruct (covers_dec ws x) as [C|C]; [exact C|exfalso] end;
     repeat match goal with H : Forall _ (_ :: _) |- _ => apply Forall_cons_iff in H; destruct H end;
     cbn [fst snd] in *; rewrite ?app_length, ?len_window in * by lia; try lia ]).
Qed.

(** * Every page is written at most once *)
Definition page_apart (p : nat) (w1 w2 : N * list N) : Prop :=
  forall x y, (N.to_nat (fst w1) <= x < N.to_nat (fst w1) + length (snd w1))%nat ->
    (N.to_nat (fst w2) <= y < N.to_nat (fst w2) + length (snd w2))%nat -> (x / p <> y / p)%nat.

Lemma apart_by : forall p w1 w2 q, (0 < p)%nat ->
  (N.to_nat (fst w1) + length (snd w1) <= p * q)%nat -> (p * q <= N.to_nat (fst w2))%nat ->
  page_apart p w1 w2 /\ page_apart p w2 w1.
Proof.
  intros p w1 w2 q Hp H1 H2.
  assert (A: forall x y, (x < p * q -> p * q <= y -> x / p <> y / p)%nat).
  { intros x y Hx Hy. pose proof (Nat.div_lt_upper_bound x p q ltac:(lia) Hx).
    pose proof (Nat.div_le_lower_bound y p q ltac:(lia) Hy). lia. }
  split; intros x y Hx Hy; [|apply not_eq_sym]; apply A; lia.
Qed.

Lemma buffered_once : forall s p data extra, data <> [] ->
  (length (header_bytes s (N.of_nat (length data))) < p)%nat ->
  (fs_variable s = true -> (0 < length (header_bytes s (N.of_nat (length data))))%nat) ->
  ForallOrdPairs (page_apart p) (buffered_writes s p data extra).
Proof.
  intros s p data extra Hd Hp Hv. unfold buffered_writes.
  assert (Hf: fs_variable s = false -> length (header_bytes s (N.of_nat (length data))) = 0%nat).
  { unfold header_bytes. intros ->. reflexivity. }
  set (h := header_bytes s (N.of_nat (length data))) in *.
  assert (HL: (0 < length data)%nat) by (destruct data; [congruence|cbn; lia]).
  pose proof (Nat.div_mod (length data + length h) p ltac:(lia)) as DM.
  pose proof (Nat.mod_upper_bound (length data + length h) p ltac:(lia)) as MB.
  set (k := ((length data + length h) / p)%nat) in *.
  set (r := ((length data + length h) mod p)%nat) in *.
  assert (K: (k = 0 \/ k = 1 \/ (2 * p <= p * k))%nat) by nia.
  assert (AP: forall w1 w2 q, ((N.to_nat (fst w1) + length (snd w1) <= q /\ q <= N.to_nat (fst w2)) \/
     (N.to_nat (fst w2) + length (snd w2) <= q /\ q <= N.to_nat (fst w1)))%nat ->
     (q = p \/ q = p * k \/ q = p * k + p)%nat -> page_apart p w1 w2).
  { intros w1 w2 q H Q.
    assert (Q': exists q', q = (p * q')%nat).
    { destruct Q as [-> |[-> | ->]]; [exists 1%nat|exists k|exists (S k)]; lia. }
    destruct Q' as (q' & ->).
    destruct H as [(H1 & H2)|(H1 & H2)].
    - apply (apart_by p w1 w2 q'); lia.
    - apply (apart_by p w2 w1 q'); lia. }
  set (pk := (p * k)%nat) in *.
  assert (K': (pk = 0 \/ pk = p \/ 2 * p <= pk)%nat) by (unfold pk; destruct K as [-> | [-> | ]]; lia).
  clearbody pk r. clear K k. clearbody h.
  assert (FE: forall n, firstn n extra = window 0 n extra) by reflexivity.
  assert (FD: forall n, firstn n data = window 0 n data) by reflexivity.
  assert (SE: forall n, skipn n extra = window n (length extra - n) extra) by (intros; apply window_skipn).
  assert (V: (fs_variable s = true /\ 0 < length h \/ fs_variable s = false /\ length h = 0)%nat)
    by (destruct (fs_variable s); auto).
  clear Hv Hf.
  destruct (Nat.ltb_spec r (length data)); destruct V as [(V & Hh)|(V & Hh)]; rewrite V;
  repeat (cbv beta iota zeta; match goal with
    | |- context [ (?a <? ?b)%nat ] => destruct (Nat.ltb_spec a b); try lia
    | |- context [ (?a =? ?b)%nat ] => destruct (Nat.eqb_spec a b); try lia
    end); cbn [negb andb app];
  repeat rewrite ?FE, ?FD, ?SE, ?app_nil_r;
  repeat (apply FOP_cons || apply FOP_nil || apply Forall_cons || apply Forall_nil);
  first [ solve [apply (AP _ _ pk); cbn [fst snd]; rewrite ?app_length, ?len_window by lia; lia]
        | solve [apply (AP _ _ p); cbn [fst snd]; rewrite ?app_length, ?len_window by lia; lia]
        | solve [apply (AP _ _ (pk + p)%nat); cbn [fst snd]; rewrite ?app_length, ?len_window by lia; lia] ].
Qed.
