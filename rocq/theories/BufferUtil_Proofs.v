From Coq Require Import List NArith Lia Bool Arith.
From Verif Require Import Base BufferUtil_Model.
Import ListNotations.

Lemma splice_0 : forall {A} (l d : list A), splice l 0 d = d ++ skipn (length d) l.
Proof. reflexivity. Qed.

Lemma splice_nil : forall {A} (l : list A) n, splice l n [] = l.
Proof. intros. unfold splice. simpl. rewrite Nat.add_0_r. apply firstn_skipn. Qed.

Lemma copy_segments_correct : forall segs off rem total buf, total + rem <= length buf ->
  let w := window off rem (concat segs) in
  copy_segments segs off rem total buf =
    (off - length (concat segs), rem - length w, total + length w, splice buf total w).
Proof.
  induction segs as [|s t IH]; intros off rem total buf H w; unfold w; clear w.
  - cbn [copy_segments concat]. unfold window. rewrite skipn_nil, firstn_nil. cbn [length].
    rewrite splice_nil. rewrite ?Nat.add_0_r; pair_eq; auto; try lia; f_equal; lia.
  - cbn [copy_segments concat buffer_copy].
    destruct (Nat.eqb_spec (length s) 0).
    + destruct s; [|simpl in e; lia]. rewrite firstn_skipn. rewrite IH by lia.
      cbn [app]. rewrite ?Nat.add_0_r; pair_eq; auto; try lia; f_equal; lia.
    + destruct (Nat.leb_spec (length s) off).
      * rewrite firstn_skipn. rewrite IH by lia.
        assert (window off rem (s ++ concat t) = window (off - length s) rem (concat t)) as E.
        { unfold window. rewrite skipn_app. rewrite skipn_all2 by lia. reflexivity. }
        rewrite E, app_length. rewrite ?Nat.add_0_r; pair_eq; auto; try lia; f_equal; lia.
      * set (bytes := Nat.min (length s - off) rem).
        set (d := firstn bytes (skipn off s)).
        assert (length d = bytes) as LD.
        { unfold d. rewrite firstn_length, skipn_length. lia. }
        assert (firstn total buf ++ splice (skipn total buf) 0 d = splice buf total d) as E1.
        { unfold splice. cbn [firstn app Nat.add]. f_equal. f_equal. rewrite skipn_skipn. reflexivity. }
        rewrite E1.
        rewrite IH by (rewrite length_splice by lia; lia).
        assert (window off rem (s ++ concat t) = d ++ window 0 (rem - bytes) (concat t)) as E2.
        { unfold window, d. rewrite skipn_app.
          replace (off - length s) with 0 by lia. cbn [skipn].
          rewrite firstn_app, skipn_length.
          f_equal.
          - unfold bytes. destruct (Nat.le_gt_cases (length s - off) rem).
            + rewrite (Nat.min_l _ _ H1). rewrite !firstn_all2; auto; rewrite skipn_length; lia.
            + rewrite Nat.min_r by lia. reflexivity.
          - f_equal. unfold bytes. lia. }
        rewrite E2, app_length.
        set (w' := window 0 (rem - bytes) (concat t)).
        assert (splice (splice buf total d) (total + bytes) w' = splice buf total (d ++ w')) as E3.
        { unfold splice. rewrite app_length.
          assert (length (firstn total buf) = total) as LF by (rewrite firstn_length; lia).
          rewrite firstn_app, LF. rewrite (firstn_all2 (n := total + bytes)) by lia.
          rewrite firstn_app. replace (total + bytes - total) with bytes by lia.
          rewrite (firstn_all2 d) by lia. replace (bytes - length d) with 0 by lia.
          rewrite firstn_O, app_nil_r.
          rewrite <- !app_assoc. f_equal. f_equal. f_equal.
          rewrite !skipn_app, LF.
          rewrite (skipn_all2 (firstn total buf)) by lia.
          rewrite (skipn_all2 d) by lia. cbn [app]. rewrite skipn_skipn. f_equal. lia. }
        rewrite E3, app_length. rewrite ?Nat.add_0_r; pair_eq; auto; try lia; f_equal; lia.
Qed.

Lemma buffer_copy_null : forall src off dl dest,
  (src = None \/ dest = None \/ src = Some []) ->
  buffer_copy src off dl dest = (0, off, dl, dest).
Proof.
  intros. unfold buffer_copy. destruct H as [H|[H|H]]; subst; auto.
  - destruct src; auto.
  - destruct dest; auto.
Qed.

Lemma length_reverse_loop : forall n i b, length (reverse_loop n i b) = length b.
Proof. induction n; intros; cbn [reverse_loop]; auto. rewrite IHn, !length_upd. auto. Qed.

Lemma reverse_loop_nth : forall n i b k, 2 * (i + n) <= length b -> k < length b ->
  nth k (reverse_loop n i b) 0%N =
  if ((i <=? k) && (k <? i + n)) || ((i <=? length b - 1 - k) && (length b - 1 - k <? i + n))
  then nth (length b - 1 - k) b 0%N else nth k b 0%N.
Proof.
  induction n; intros i b k H Hk; cbn [reverse_loop].
  - destruct (Nat.leb_spec i k), (Nat.ltb_spec k (i + 0)), (Nat.leb_spec i (length b - 1 - k)),
      (Nat.ltb_spec (length b - 1 - k) (i + 0)); simpl; auto; lia.
  - set (j := length b - 1 - i).
    set (b' := upd (upd b i (nth j b 0%N)) j (nth i b 0%N)).
    assert (length b' = length b) as L by (unfold b'; now rewrite !length_upd).
    rewrite IHn by lia. rewrite L.
    assert (forall m, m < length b -> nth m b' 0%N = if m =? j then nth i b 0%N else if m =? i then nth j b 0%N else nth m b 0%N) as Nb.
    { intros. unfold b'. destruct (Nat.eqb_spec m j).
      - subst. now rewrite nth_upd_eq by (rewrite length_upd; lia).
      - rewrite nth_upd_neq by lia. destruct (Nat.eqb_spec m i).
        + subst. now rewrite nth_upd_eq by lia.
        + now rewrite nth_upd_neq by lia. }
    rewrite !Nb by lia. unfold j.
    destruct (Nat.leb_spec (S i) k), (Nat.ltb_spec k (S i + n)), (Nat.leb_spec (S i) (length b - 1 - k)),
      (Nat.ltb_spec (length b - 1 - k) (S i + n)), (Nat.leb_spec i k), (Nat.ltb_spec k (i + S n)),
      (Nat.leb_spec i (length b - 1 - k)), (Nat.ltb_spec (length b - 1 - k) (i + S n)); cbn [andb orb]; try lia;
    repeat match goal with |- context [?a =? ?b] => destruct (Nat.eqb_spec a b) end; try lia; auto; f_equal; lia.
Qed.

Lemma buffer_reverse_correct : forall b, buffer_reverse b = rev b.
Proof.
  intros. unfold buffer_reverse. apply nth_ext_len with (d := 0%N).
  - now rewrite length_reverse_loop, rev_length.
  - intros k Hk. rewrite length_reverse_loop in Hk.
    pose proof (Nat.div_mod (length b) 2 ltac:(lia)). pose proof (Nat.mod_upper_bound (length b) 2 ltac:(lia)).
    rewrite reverse_loop_nth by lia. rewrite rev_nth by auto.
    replace (length b - S k) with (length b - 1 - k) by lia.
    destruct (Nat.leb_spec 0 k), (Nat.ltb_spec k (0 + length b / 2)), (Nat.leb_spec 0 (length b - 1 - k)),
      (Nat.ltb_spec (length b - 1 - k) (0 + length b / 2)); cbn [andb orb]; auto; try lia; f_equal; lia.
Qed.

Lemma reverse_copy_loop_nth : forall n i dest src len k, i + n <= length dest ->
  nth k (reverse_copy_loop n i dest src len) 0%N =
  if (i <=? k) && (k <? i + n) then nth (len - 1 - k) src 0%N else nth k dest 0%N.
Proof.
  induction n; intros; cbn [reverse_copy_loop].
  - destruct (Nat.leb_spec i k), (Nat.ltb_spec k (i + 0)); simpl; auto; lia.
  - rewrite IHn by (rewrite length_upd; lia).
    destruct (Nat.leb_spec (S i) k), (Nat.ltb_spec k (S i + n)), (Nat.leb_spec i k), (Nat.ltb_spec k (i + S n));
      cbn [andb]; try lia; auto; try (now rewrite nth_upd_neq by lia).
    assert (k = i) by lia. subst. now rewrite nth_upd_eq by lia.
Qed.

Lemma length_reverse_copy_loop : forall n i dest src len,
  length (reverse_copy_loop n i dest src len) = length dest.
Proof. induction n; intros; cbn [reverse_copy_loop]; auto. rewrite IHn. apply length_upd. Qed.

Lemma buffer_reverse_copy_correct : forall dest src len, len <= length dest -> len <= length src ->
  buffer_reverse_copy dest src len = splice dest 0 (rev (firstn len src)).
Proof.
  intros. unfold buffer_reverse_copy. apply nth_ext_len with (d := 0%N).
  - rewrite length_reverse_copy_loop, length_splice; auto. rewrite rev_length, firstn_length. lia.
  - intros k Hk. rewrite length_reverse_copy_loop in Hk. rewrite reverse_copy_loop_nth by lia.
    assert (length (rev (firstn len src)) = len) as L by (rewrite rev_length, firstn_length; lia).
    cbn [Nat.leb andb Nat.add]. destruct (Nat.ltb_spec k len).
    + rewrite splice_0, app_nth1 by lia. rewrite rev_nth by (rewrite firstn_length; lia).
      rewrite firstn_length, Nat.min_l by lia. rewrite nth_firstn by lia. f_equal. lia.
    + rewrite splice_0, app_nth2, L by lia. rewrite nth_skipn. f_equal. lia.
Qed.

(* ---- comparison ---- *)

Lemma compare_match_sub : forall ones n b1 b2 m, N.land (compare_match ones b1 b2 n m) m = compare_match ones b1 b2 n m.
Proof.
  induction n; intros; cbn [compare_match]; [apply N.land_diag|].
  set (e := N.lxor _ _). pose proof (IHn (tl b1) (tl b2) (N.land m e)) as H.
  set (c := compare_match _ _ _ _ _) in *. clearbody c.
  transitivity (N.land (N.land c (N.land m e)) m); [now rewrite H|]. rewrite <- H at 2.
  apply N.bits_inj. intro k. rewrite !N.land_spec.
  destruct (N.testbit c k), (N.testbit m k), (N.testbit e k); reflexivity.
Qed.

Lemma land_absorb_ones : forall w x y,
  N.land x y = N.ones w -> N.land x (N.ones w) = x -> x = N.ones w /\ N.land (N.ones w) y = N.ones w.
Proof.
  intros. assert (x = N.ones w) as E.
  { rewrite <- H0. apply N.bits_inj. intro k. rewrite N.land_spec.
    destruct (N.testbit (N.ones w) k) eqn:T; [|apply andb_false_r].
    rewrite <- H, N.land_spec in T. apply andb_true_iff in T. destruct T as [T _]. now rewrite T. }
  subst. split; auto.
Qed.

Lemma check_ones : forall w x y, (x < 2 ^ w)%N -> (y < 2 ^ w)%N ->
  N.land (N.ones w) (N.lxor (N.lxor x (N.ones w)) y) = N.ones w <-> x = y.
Proof.
  intros w x y Hx Hy. rewrite N.land_comm. split; intros H.
  - apply N.bits_inj. intro k.
    destruct (N.lt_ge_cases k w) as [L|L].
    + assert (N.testbit (N.land (N.lxor (N.lxor x (N.ones w)) y) (N.ones w)) k = true) as T
        by (rewrite H; now apply N.ones_spec_low).
      rewrite N.land_spec, !N.lxor_spec, N.ones_spec_low in T by auto.
      destruct (N.testbit x k), (N.testbit y k); simpl in T; congruence.
    + assert (forall z, (z < 2 ^ w)%N -> N.testbit z k = false) as Hi.
      { intros z Hz. destruct (N.eq_dec z 0) as [->|]; [apply N.bits_0|].
        apply N.bits_above_log2. eapply N.lt_le_trans; [|eassumption]. apply N.log2_lt_pow2; lia. }
      now rewrite !Hi.
  - subst. apply N.bits_inj. intro k. rewrite N.land_spec, !N.lxor_spec.
    destruct (N.testbit (N.ones w) k); [|apply andb_false_r].
    destruct (N.testbit y k); reflexivity.
Qed.

Lemma compare_match_ones : forall w n b1 b2,
  Forall (fun x => x < 2 ^ w)%N b1 -> Forall (fun x => x < 2 ^ w)%N b2 ->
  n <= length b1 -> n <= length b2 ->
  (compare_match (N.ones w) b1 b2 n (N.ones w) = N.ones w <-> firstn n b1 = firstn n b2).
Proof.
  induction n; intros b1 b2 F1 F2 H1 H2; cbn [compare_match].
  - split; reflexivity.
  - destruct b1 as [|x b1]; [simpl in H1; lia|]. destruct b2 as [|y b2]; [simpl in H2; lia|].
    inversion F1; inversion F2; subst. cbn [tl hd firstn] in *. cbn [length] in H1, H2.
    set (m := N.land (N.ones w) (N.lxor (N.lxor x (N.ones w)) y)).
    split; intros E.
    + pose proof (compare_match_sub (N.ones w) n b1 b2 m) as S. rewrite E in S.
      assert (m = N.ones w) as M.
      { unfold m in S |- *. rewrite N.land_assoc, N.land_diag in S. exact S. }
      rewrite M in E. f_equal.
      * apply (check_ones w); auto.
      * apply IHn; auto; lia.
    + injection E as -> E'. assert (m = N.ones w) as M by (apply check_ones; auto).
      rewrite M. apply IHn; auto; lia.
Qed.

Lemma buffer_compare_correct : forall w b1 b2 len,
  Forall (fun x => x < 2 ^ w)%N b1 -> Forall (fun x => x < 2 ^ w)%N b2 ->
  len <= length b1 -> len <= length b2 ->
  (buffer_compare (N.ones w) (Some b1) (Some b2) len = true <-> firstn len b1 = firstn len b2).
Proof.
  intros. unfold buffer_compare. rewrite N.eqb_eq. now apply compare_match_ones.
Qed.

(** One call in isolation. *)
Lemma buffer_copy_eq : forall s off n d, n <= length d ->
  let w := window off n s in
  buffer_copy (Some s) (Some off) (Some n) (Some d) =
    (length w, Some (off - length s), Some (n - length w), Some (splice d 0 w)).
Proof.
  intros s off n d H w. unfold w, buffer_copy. clear w.
  destruct (Nat.eqb_spec (length s) 0) as [E|E].
  - destruct s; [|simpl in E; lia]. rewrite window_nil. cbn [length]. rewrite splice_nil, !Nat.sub_0_r. reflexivity.
  - destruct (Nat.leb_spec (length s) off).
    + rewrite window_past by auto. cbn [length]. rewrite splice_nil, Nat.sub_0_r. reflexivity.
    + set (b := Nat.min (length s - off) n).
      assert (firstn b (skipn off s) = window off n s) as W.
      { unfold window, b. destruct (Nat.le_gt_cases (length s - off) n).
        - rewrite Nat.min_l by auto. rewrite !firstn_all2; auto; rewrite skipn_length; lia.
        - rewrite Nat.min_r by lia. reflexivity. }
      rewrite W. assert (length (window off n s) = b) as L by (rewrite length_window; unfold b; lia).
      rewrite L. replace (off - length s) with 0 by lia. reflexivity.
Qed.
