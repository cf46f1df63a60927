(** Vocabulary shared by all models: byte lists, list update, windows, flash images.
    Nothing here models a function of the code base; these are the mathematical notions in which
    models and specifications are written. *)
From Coq Require Import List NArith ZArith Lia Bool Arith.
Import ListNotations.
Local Open Scope nat_scope.

(** A byte is an [N] below 256. *)
Definition byte_ok (b : N) : Prop := (b < 256)%N.
Definition bytes_ok (l : list N) : Prop := Forall byte_ok l.

(** The window [off, off+len) of a list, clipped to its end. *)
Definition window {A} (off len : nat) (l : list A) : list A := firstn len (skipn off l).

(** Replace element [i]; out of range leaves the list unchanged. *)
Fixpoint upd {A} (l : list A) (i : nat) (v : A) : list A :=
  match l, i with
  | [], _ => []
  | _ :: t, O => v :: t
  | h :: t, S j => h :: upd t j v
  end.

(** Overwrite the elements starting at [off] with [data] (memcpy into a buffer). *)
Definition splice {A} (l : list A) (off : nat) (data : list A) : list A :=
  firstn off l ++ data ++ skipn (off + length data) l.

(** Flash or memory image: a total map from addresses to bytes. *)
Definition image := N -> N.
Definition img_read (m : image) (a : N) (len : nat) : list N :=
  map (fun i => m (a + N.of_nat i)%N) (seq 0 len).
Definition img_eq_on (P : N -> Prop) (m1 m2 : image) : Prop := forall a, P a -> m1 a = m2 a.
Definition in_range (a base len : N) : Prop := (base <= a < base + len)%N.

(** Little-endian and big-endian values of byte lists. *)
Fixpoint le_value (l : list N) : N :=
  match l with [] => 0 | b :: t => (b + 256 * le_value t)%N end.
Definition be_value (l : list N) : N := fold_left (fun acc b => (acc * 256 + b)%N) l 0%N.
Definition le16 (x : N) : list N := [(x mod 256)%N; (x / 256 mod 256)%N].
Definition le32 (x : N) : list N :=
  [(x mod 256)%N; (x / 256 mod 256)%N; (x / 65536 mod 256)%N; (x / 16777216 mod 256)%N].

(* ------------------------------------------------------------------------------------------ *)

Section Upd.
  Context {A : Type}.
  Implicit Types l : list A.

  Lemma length_upd : forall l i v, length (upd l i v) = length l.
  Proof. induction l; destruct i; simpl; auto. Qed.

  Lemma nth_upd_eq : forall l i v d, i < length l -> nth i (upd l i v) d = v.
  Proof. induction l; destruct i; simpl; intros; try lia; auto. apply IHl; lia. Qed.

  Lemma nth_upd_neq : forall l i j v d, i <> j -> nth j (upd l i v) d = nth j l d.
  Proof. induction l; destruct i; destruct j; simpl; intros; try lia; auto. Qed.

  Lemma nth_error_upd_eq : forall l i v, i < length l -> nth_error (upd l i v) i = Some v.
  Proof. induction l; destruct i; simpl; intros; try lia; auto. apply IHl; lia. Qed.

  Lemma nth_error_upd_neq : forall l i j v, i <> j -> nth_error (upd l i v) j = nth_error l j.
  Proof. induction l; destruct i; destruct j; simpl; intros; try lia; auto. Qed.

  Lemma upd_out : forall l i v, length l <= i -> upd l i v = l.
  Proof. induction l; destruct i; simpl; intros; try lia; auto. f_equal; apply IHl; lia. Qed.

  Lemma upd_split : forall l i v, i < length l -> upd l i v = firstn i l ++ v :: skipn (S i) l.
  Proof. induction l; destruct i; simpl; intros; try lia; auto. f_equal. apply IHl; lia. Qed.

  Lemma upd_app_r : forall l l' i v, length l <= i -> upd (l ++ l') i v = l ++ upd l' (i - length l) v.
  Proof.
    induction l; simpl; intros; [f_equal; lia|].
    destruct i; [lia|]. simpl. f_equal. apply IHl; lia.
  Qed.

  Lemma upd_app_l : forall l l' i v, i < length l -> upd (l ++ l') i v = upd l i v ++ l'.
  Proof. induction l; destruct i; simpl; intros; try lia; auto. f_equal. apply IHl; lia. Qed.

  Lemma Forall_upd : forall (P : A -> Prop) l i v, Forall P l -> P v -> Forall P (upd l i v).
  Proof.
    induction l; destruct i; simpl; intros; auto; inversion H; subst; constructor; auto.
  Qed.

  Lemma upd_same : forall l i d, i < length l -> upd l i (nth i l d) = l.
  Proof. induction l; destruct i; simpl; intros; try lia; auto. f_equal. apply IHl; lia. Qed.
End Upd.

Section ListLemmas.
  Context {A : Type}.
  Implicit Types l : list A.

  Lemma nth_ext_len : forall (d : A) l l', length l = length l' ->
    (forall i, i < length l -> nth i l d = nth i l' d) -> l = l'.
  Proof. intros. eapply nth_ext with (d := d) (d' := d); auto. Qed.

  Lemma skipn_skipn : forall l a b, skipn a (skipn b l) = skipn (b + a) l.
  Proof.
    induction l; intros; [now rewrite !skipn_nil|].
    destruct b; simpl; auto.
  Qed.

  Lemma firstn_app_le : forall l l' n, n <= length l -> firstn n (l ++ l') = firstn n l.
  Proof. intros. rewrite firstn_app. replace (n - length l) with 0 by lia. now rewrite app_nil_r. Qed.

  Lemma firstn_app_ge : forall l l' n, length l <= n ->
    firstn n (l ++ l') = l ++ firstn (n - length l) l'.
  Proof. intros. rewrite firstn_app. now rewrite firstn_all2 by lia. Qed.

  Lemma skipn_app_le : forall l l' n, n <= length l -> skipn n (l ++ l') = skipn n l ++ l'.
  Proof. intros. rewrite skipn_app. now replace (n - length l) with 0 by lia. Qed.

  Lemma skipn_app_ge : forall l l' n, length l <= n -> skipn n (l ++ l') = skipn (n - length l) l'.
  Proof. intros. rewrite skipn_app. now rewrite skipn_all2 by lia. Qed.

  Lemma nth_skipn : forall l n i d, nth i (skipn n l) d = nth (n + i) l d.
  Proof.
    induction l; intros; [rewrite skipn_nil; destruct i, n; auto|].
    destruct n; simpl; auto.
  Qed.

  Lemma nth_firstn : forall l n i d, i < n -> nth i (firstn n l) d = nth i l d.
  Proof.
    induction l; intros; [now rewrite firstn_nil|].
    destruct n; [lia|]. destruct i; simpl; auto. apply IHl; lia.
  Qed.

  Lemma Forall_firstn : forall (P : A -> Prop) l n, Forall P l -> Forall P (firstn n l).
  Proof. induction l; destruct n; simpl; intros; auto. inversion H; constructor; auto. Qed.

  Lemma Forall_skipn : forall (P : A -> Prop) l n, Forall P l -> Forall P (skipn n l).
  Proof. induction l; destruct n; simpl; intros; auto. inversion H; auto. Qed.

  Lemma length_window : forall off len l, length (window off len l) = Nat.min len (length l - off).
  Proof. intros. unfold window. rewrite firstn_length, skipn_length. lia. Qed.

  Lemma window_app : forall off len l l',
    window off len (l ++ l') =
    window off len l ++ window (off - length l) (len - length (window off len l)) l'.
  Proof.
    intros. unfold window. rewrite skipn_app, firstn_app. f_equal.
    rewrite firstn_length, !skipn_length.
    destruct (Nat.le_gt_cases (length l - off) len).
    - f_equal. lia.
    - replace (len - (length l - off)) with 0 by lia.
      replace (len - Nat.min len (length l - off)) with 0 by lia. reflexivity.
  Qed.

  Lemma window_all : forall l, window 0 (length l) l = l.
  Proof. intros. unfold window. simpl. apply firstn_all. Qed.

  Lemma window_nil : forall off len, window off len (@nil A) = [].
  Proof. intros. unfold window. now rewrite skipn_nil, firstn_nil. Qed.

  Lemma window_zero : forall off l, window off 0 l = [].
  Proof. reflexivity. Qed.

  Lemma window_past : forall off len l, length l <= off -> window off len l = [].
  Proof. intros. unfold window. rewrite skipn_all2 by lia. now rewrite firstn_nil. Qed.

  Lemma nth_window : forall off len l i d, i < len -> nth i (window off len l) d = nth (off + i) l d.
  Proof. intros. unfold window. rewrite nth_firstn by auto. apply nth_skipn. Qed.

  (** Reading two adjacent windows is reading one window. *)
  Lemma window_split : forall off a b l,
    window off (a + b) l = window off a l ++ window (off + a) b l.
  Proof.
    intros. unfold window. rewrite <- skipn_skipn.
    generalize (skipn off l). intro m. revert m.
    induction a; intros m; [reflexivity|].
    destruct m; [simpl; now rewrite firstn_nil|].
    simpl. f_equal. apply IHa.
  Qed.

  Lemma length_splice : forall l off data, off + length data <= length l ->
    length (splice l off data) = length l.
  Proof.
    intros. unfold splice. rewrite !app_length, firstn_length, skipn_length. lia.
  Qed.

  Lemma nth_splice_in : forall l off data i d, off + length data <= length l ->
    i < length data -> nth (off + i) (splice l off data) d = nth i data d.
  Proof.
    intros. unfold splice. rewrite app_nth2; rewrite firstn_length, Nat.min_l by lia; [|lia].
    rewrite app_nth1 by lia. f_equal. lia.
  Qed.

  Lemma nth_splice_out : forall l off data i d, off + length data <= length l ->
    (i < off \/ off + length data <= i) -> nth i (splice l off data) d = nth i l d.
  Proof.
    intros. unfold splice. destruct H0.
    - rewrite app_nth1 by (rewrite firstn_length; lia). apply nth_firstn; auto.
    - rewrite app_nth2; rewrite firstn_length, Nat.min_l by lia; [|lia].
      rewrite app_nth2 by lia. rewrite nth_skipn. f_equal. lia.
  Qed.

  Lemma window_splice : forall l off data, off + length data <= length l ->
    window off (length data) (splice l off data) = data.
  Proof.
    intros. unfold window, splice.
    assert (length (firstn off l) = off) by (rewrite firstn_length; lia).
    rewrite skipn_app_ge by lia. rewrite H0, Nat.sub_diag. simpl skipn.
    rewrite firstn_app_le by lia. apply firstn_all.
  Qed.
End ListLemmas.

Lemma bytes_ok_app : forall a b, bytes_ok (a ++ b) <-> bytes_ok a /\ bytes_ok b.
Proof. intros. apply Forall_app. Qed.

Lemma length_img_read : forall m a len, length (img_read m a len) = len.
Proof. intros. unfold img_read. now rewrite map_length, seq_length. Qed.

Lemma nth_img_read : forall m a len i d, i < len ->
  nth i (img_read m a len) d = m (a + N.of_nat i)%N.
Proof.
  intros. unfold img_read.
  rewrite nth_indep with (d' := m (a + N.of_nat 0)%N) by (now rewrite map_length, seq_length).
  rewrite map_nth with (f := fun i => m (a + N.of_nat i)%N). f_equal.
  rewrite seq_nth by auto. lia.
Qed.

Lemma img_read_ext : forall m1 m2 a1 a2 len,
  (forall i, i < len -> m1 (a1 + N.of_nat i)%N = m2 (a2 + N.of_nat i)%N) ->
  img_read m1 a1 len = img_read m2 a2 len.
Proof.
  intros. unfold img_read. apply map_ext_in. intros. apply in_seq in H0. apply H. lia.
Qed.

Lemma img_read_app : forall m a x y,
  img_read m a (x + y) = img_read m a x ++ img_read m (a + N.of_nat x)%N y.
Proof.
  intros. unfold img_read. rewrite seq_app, map_app. f_equal.
  simpl. rewrite <- (Nat.add_0_r x) at 1.
  change (seq (x+0) y) with (seq (x + 0) y).
  assert (forall n, seq (x + n) y = map (fun i => x + i) (seq n y)) as E.
  { clear. induction y; intros; simpl; auto. f_equal. rewrite <- IHy. f_equal. lia. }
  rewrite E, map_map. apply map_ext. intros. f_equal. lia.
Qed.

(** Big-endian value lemmas. *)
Lemma be_value_acc : forall l acc,
  fold_left (fun acc b => (acc * 256 + b)%N) l acc =
  (acc * 256 ^ N.of_nat (length l) + be_value l)%N.
Proof.
  induction l; intros; unfold be_value; simpl length; cbn [fold_left].
  - simpl. lia.
  - rewrite IHl, (IHl (0 * 256 + a)%N). rewrite Nat2N.inj_succ, N.pow_succ_r'. lia.
Qed.

Lemma be_value_cons : forall b l,
  be_value (b :: l) = (b * 256 ^ N.of_nat (length l) + be_value l)%N.
Proof. intros. unfold be_value at 1. cbn [fold_left]. rewrite be_value_acc. lia. Qed.

Lemma be_value_app : forall a b,
  be_value (a ++ b) = (be_value a * 256 ^ N.of_nat (length b) + be_value b)%N.
Proof. intros. unfold be_value at 1. rewrite fold_left_app, be_value_acc. reflexivity. Qed.

Lemma be_value_snoc : forall a b, be_value (a ++ [b]) = (be_value a * 256 + b)%N.
Proof. intros. rewrite be_value_app. simpl length. change (256 ^ N.of_nat 1)%N with 256%N.
  unfold be_value at 2. simpl. lia. Qed.

Lemma be_value_bound : forall l, bytes_ok l -> (be_value l < 256 ^ N.of_nat (length l))%N.
Proof.
  induction l; intros.
  - reflexivity.
  - inversion H; subst. rewrite be_value_cons. simpl length.
    rewrite Nat2N.inj_succ, N.pow_succ_r'. specialize (IHl H3). unfold byte_ok in H2. nia.
Qed.

Lemma be_value_inj : forall a b, length a = length b -> bytes_ok a -> bytes_ok b ->
  be_value a = be_value b -> a = b.
Proof.
  induction a; destruct b; simpl; intros; try lia; auto.
  inversion H0; inversion H1; subst. rewrite !be_value_cons in H2.
  assert (length a0 = length b) as L by lia. rewrite L in H2.
  pose proof (be_value_bound _ H6). pose proof (be_value_bound _ H10).
  rewrite L in H3.
  set (K := (256 ^ N.of_nat (length b))%N) in *.
  assert (a = n) by nia. subst. f_equal. apply IHa; auto. nia.
Qed.

(** Split an equality of tuples into its components. *)
Ltac pair_eq := repeat match goal with |- (_, _) = (_, _) => apply f_equal2 end.
