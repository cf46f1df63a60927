From Coq Require Import List NArith Lia Bool Arith ZifyBool ZifyNat ZifyN.
From Verif Require Import Base BufferUtil_Model BufferUtil_Proofs RamLog_Model RamLog_Spec.
Import ListNotations.

Section Log.
  Variables (cnt elen : nat).
  Hypothesis cnt_pos : 0 < cnt.
  Let es := elen + header_size.
  Let c := {| log_size := cnt * es; entry_size := es |}.

  Lemma es_pos : 0 < es. Proof. unfold es, header_size. lia. Qed.

  Definition entry_ok (e : N * list N) : Prop := length (snd e) = elen /\ (fst e < 2 ^ 32)%N.

  Lemma length_encode : forall e, entry_ok e -> length (encode e) = es.
  Proof.
    intros e [H _]. unfold encode. cbn [length]. rewrite !app_length, H. unfold es, header_size.
    unfold le16, le32. cbn [length]. lia.
  Qed.

  Lemma length_stream : forall l, Forall entry_ok l -> length (stream l) = length l * es.
  Proof.
    induction l; intros; [reflexivity|]. inversion H; subst. unfold stream in *. cbn [map concat length].
    rewrite app_length, length_encode, IHl by auto. lia.
  Qed.

  Lemma stream_app : forall a b, stream (a ++ b) = stream a ++ stream b.
  Proof. intros. unfold stream. now rewrite map_app, concat_app. Qed.

  Lemma stream_cons : forall a b, stream (a :: b) = encode a ++ stream b.
  Proof. reflexivity. Qed.

  Lemma stream_one : forall a, stream [a] = encode a.
  Proof. intros. unfold stream. cbn [map concat]. apply app_nil_r. Qed.

  (** How the memory represents the list [l] of kept entries.  [clean] says the unused part is zero. *)
  Inductive repr (s : ramlog) (l : list (N * list N)) : Prop :=
  | repr_part : forall junk, is_full s = false -> log_start s = 0 -> log_end s = length l * es ->
      length l < cnt -> log_buffer s = stream l ++ junk -> length junk = (cnt - length l) * es ->
      Forall (fun b => b = 0%N) junk -> repr s l
  | repr_full : forall A B, is_full s = true -> log_start s = length A * es -> log_end s = length A * es ->
      l = B ++ A -> B <> [] -> length l = cnt -> log_buffer s = stream A ++ stream B -> repr s l.

  Lemma splice_append : forall {A} (a x y : list A) , length x <= length y ->
    splice (a ++ y) (length a) x = a ++ x ++ skipn (length x) y.
  Proof.
    intros. unfold splice. rewrite firstn_app, firstn_all, Nat.sub_diag, firstn_O, app_nil_r.
    rewrite skipn_app. rewrite skipn_all2 by lia. cbn [app].
    replace (length a + length x - length a) with (length x) by lia. reflexivity.
  Qed.

  Lemma splice_encode : forall a y id e, length e = elen -> es <= length y ->
    splice (splice (a ++ y) (length a) (header_bytes (N.of_nat (header_size + length e)) id))
      (length a + header_size) e = a ++ encode (id, e) ++ skipn es y.
  Proof.
    intros a y id e He Hy.
    set (h := header_bytes _ _). assert (length h = header_size) as Lh by reflexivity.
    rewrite splice_append by (unfold es in *; lia).
    replace (a ++ h ++ skipn (length h) y) with ((a ++ h) ++ skipn (length h) y) by (now rewrite app_assoc).
    replace (length a + header_size) with (length (a ++ h)) by (rewrite app_length; lia).
    rewrite splice_append by (rewrite skipn_length; unfold es in *; lia).
    rewrite skipn_skipn, <- app_assoc. f_equal. rewrite app_assoc.
    replace (encode (id, e)) with (h ++ e).
    - rewrite He, Lh. unfold es. now rewrite (Nat.add_comm elen).
    - reflexivity.
  Qed.

  Lemma lastn_short : forall {A} n (l : list A), length l <= n -> lastn n l = l.
  Proof. intros. unfold lastn. now replace (length l - n) with 0 by lia. Qed.

  Lemma length_lastn : forall {A} n (l : list A), length (lastn n l) = Nat.min n (length l).
  Proof. intros. unfold lastn. rewrite skipn_length. lia. Qed.

  Lemma lastn_snoc_full : forall {A} n (l : list A) x h t, 0 < n -> n <= length l ->
    lastn n l = h :: t -> lastn n (l ++ [x]) = t ++ [x].
  Proof.
    intros. unfold lastn in *. rewrite app_length. cbn [length].
    replace (length l + 1 - n) with (S (length l - n)) by lia.
    assert (length (firstn (length l - n) l) = length l - n) as L by (rewrite firstn_length; lia).
    rewrite <- (firstn_skipn (length l - n) l) at 2. rewrite H1, <- app_assoc.
    rewrite skipn_app, L. rewrite skipn_all2 by lia.
    replace (S (length l - n) - (length l - n)) with 1 by lia. reflexivity.
  Qed.

  Lemma Forall_lastn : forall {A} (P : A -> Prop) n l, Forall P l -> Forall P (lastn n l).
  Proof. intros. now apply Forall_skipn. Qed.

  Definition inv (s : ramlog) (st : N * list (N * list N)) : Prop :=
    next_entry_id s = fst st /\ (fst st < 2 ^ 32)%N /\ Forall entry_ok (snd st) /\
    repr s (lastn cnt (snd st)).

  Lemma mul_es : forall k, k * es + es = S k * es. Proof. intros; lia. Qed.

  Lemma eqb_mul_es : forall a b, (a * es =? b * es) = (a =? b).
  Proof.
    intros. pose proof es_pos. destruct (Nat.eqb_spec a b); [subst; now rewrite Nat.eqb_refl|].
    apply Nat.eqb_neq. intro. apply n. eapply Nat.mul_cancel_r; [|eassumption]. lia.
  Qed.

  Lemma create_inv : forall s st e, inv s st -> inv (fst (create_entry c s e)) (spec_step elen st (Create e)).
  Proof.
    intros s [next ents] e (Hn & Hb & Hok & Hr). cbn [fst snd] in *.
    unfold create_entry, spec_step. cbn [entry_size log_size c].
    replace (es - header_size) with elen by (unfold es; lia).
    destruct (Nat.eqb_spec (length e) elen) as [He|He]; cbn [negb fst snd].
    2:{ repeat split; auto. }
    assert (entry_ok (next, e)) as Hnew by (split; auto).
    assert (Forall entry_ok (ents ++ [(next, e)])) as Hok' by (apply Forall_app; split; auto).
    assert (((next + 1) mod 2 ^ 32 < 2 ^ 32)%N) by (apply N.mod_upper_bound; discriminate).
    pose proof (Forall_lastn _ cnt _ Hok) as HokL.
    unfold inv. cbn [fst snd].
    destruct Hr as [junk F St En Ln Bu Lj Z | A B F St En LA NB Ln Bu].
    - (* not yet full *)
      set (l := lastn cnt ents) in *.
      assert (length ents < cnt) as LE by (unfold l in Ln; rewrite length_lastn in Ln; lia).
      assert (l = ents) as EL by (apply lastn_short; lia).
      assert (lastn cnt (ents ++ [(next, e)]) = l ++ [(next, e)]) as EL'.
      { rewrite EL. apply lastn_short. rewrite app_length. cbn [length]. lia. }
      rewrite EL', Hn.
      assert (length (stream l) = length l * es) as LS by (now apply length_stream).
      rewrite En, Bu, <- LS.
      rewrite splice_encode; [|auto|rewrite Lj; unfold es in *; nia].
      assert (length (stream l) + header_size + length e = S (length l) * es) as Eend.
      { rewrite LS, He. unfold es. lia. }
      rewrite Eend, eqb_mul_es.
      destruct (Nat.eqb_spec (S (length l)) cnt).
      + split; [reflexivity|]. split; [auto|]. split; [auto|].
        apply repr_full with (A := []) (B := l ++ [(next, e)]); auto.
        * rewrite app_nil_r. reflexivity.
        * intro Q. apply app_eq_nil in Q. destruct Q. discriminate.
        * rewrite app_length. cbn [length]. lia.
        * cbn [fst log_buffer]. rewrite stream_app. cbn [stream map concat app]. rewrite app_nil_r.
          rewrite (skipn_all2 junk) by (rewrite Lj; nia). rewrite app_nil_r. reflexivity.
      + split; [reflexivity|]. split; [auto|]. split; [auto|].
        apply repr_part with (junk := skipn es junk); cbn [fst is_full log_start log_end log_buffer]; auto.
        * rewrite F. exact St.
        * rewrite app_length. cbn [length]. f_equal. lia.
        * rewrite app_length. cbn [length]. lia.
        * rewrite stream_app, <- app_assoc. f_equal. unfold stream. cbn [map concat]. now rewrite app_nil_r.
        * rewrite skipn_length, Lj, app_length. cbn [length]. nia.
        * now apply Forall_skipn.
    - (* full *)
      set (l := lastn cnt ents) in *.
      assert (cnt <= length ents) as LE by (unfold l in Ln; rewrite length_lastn in Ln; lia).
      destruct B as [|b B']; [congruence|]. 
      assert (lastn cnt (ents ++ [(next, e)]) = B' ++ A ++ [(next, e)]) as EL'.
      { rewrite (lastn_snoc_full cnt ents (next, e) b (B' ++ A)); auto. now rewrite <- app_assoc. }
      rewrite EL', Hn.
      assert (Forall entry_ok A /\ Forall entry_ok (b :: B')) as [OA OB].
      { rewrite LA in HokL. apply Forall_app in HokL. tauto. }
      assert (length (stream A) = length A * es) as LS by (now apply length_stream).
      pose proof (Forall_inv OB) as Ob. pose proof (Forall_inv_tail OB) as OB'.
      rewrite En, Bu, <- LS.
      rewrite splice_encode; [|auto|].
      2:{ rewrite stream_cons, app_length, length_encode by auto. lia. }
      assert (skipn es (stream (b :: B')) = stream B') as SK.
      { rewrite stream_cons, skipn_app, length_encode by auto.
        rewrite skipn_all2 by (rewrite length_encode by auto; lia). rewrite Nat.sub_diag. reflexivity. }
      rewrite SK.
      assert (length (stream A) + header_size + length e = S (length A) * es) as Eend.
      { rewrite LS, He. unfold es. lia. }
      rewrite Eend, eqb_mul_es.
      assert (length B' + length A + 1 = cnt) as LBA by (rewrite LA, app_length in Ln; cbn [length] in Ln; lia).
      assert (stream (A ++ [(next, e)]) = stream A ++ encode (next, e)) as SA.
      { rewrite stream_app. f_equal. unfold stream. cbn [map concat]. now rewrite app_nil_r. }
      destruct (Nat.eqb_spec (S (length A)) cnt) as [Q|Q].
      + assert (B' = []) by (destruct B'; auto; simpl in LBA; lia). subst B'. cbn [app].
        split; [reflexivity|]. split; [auto|]. split; [auto|].
        apply repr_full with (A := []) (B := A ++ [(next, e)]); cbn [fst is_full log_start log_end log_buffer]; auto.
        * now rewrite app_nil_r.
        * intro X. apply app_eq_nil in X. destruct X. discriminate.
        * rewrite app_length. cbn [length]. lia.
        * rewrite SA. cbn [stream map concat app]. now rewrite app_nil_r.
      + split; [reflexivity|]. split; [auto|]. split; [auto|].
        rewrite F.
        apply repr_full with (A := A ++ [(next, e)]) (B := B'); cbn [fst is_full log_start log_end log_buffer]; auto.
        * rewrite app_length. cbn [length]. f_equal. lia.
        * rewrite app_length. cbn [length]. f_equal. lia.
        * intro X. rewrite X in LBA. simpl in LBA. lia.
        * rewrite !app_length. cbn [length]. lia.
        * rewrite SA, <- app_assoc. reflexivity.
  Qed.

  Lemma length_buffer : forall s l, Forall entry_ok l -> repr s l -> length (log_buffer s) = cnt * es.
  Proof.
    intros s l Ok [junk F St En Ln Bu Lj Z | A B F St En LA NB Ln Bu].
    - rewrite Bu, app_length, length_stream by auto. rewrite Lj. nia.
    - subst l. apply Forall_app in Ok. destruct Ok. rewrite Bu, app_length, !length_stream by auto.
      rewrite app_length in Ln. nia.
  Qed.

  Lemma clear_inv : forall s st, inv s st -> inv (clear c s) (spec_step elen st Clear).
  Proof.
    intros s [next ents] (Hn & Hb & Hok & Hr). cbn [fst snd] in *. unfold inv, spec_step, clear. cbn [fst snd].
    split; [auto|]. split; [auto|]. split; [constructor|].
    pose proof (length_buffer s _ (Forall_lastn _ cnt _ Hok) Hr) as LB.
    apply repr_part with (junk := repeat 0%N (cnt * es)); cbn [fst is_full log_start log_end log_buffer]; auto.
    - unfold splice. rewrite repeat_length. cbn [log_size c]. rewrite skipn_all2 by lia.
      rewrite app_nil_r. reflexivity.
    - rewrite repeat_length. cbn. lia.
    - apply Forall_forall. intros x Hx. now apply repeat_spec in Hx.
  Qed.

  Lemma step_inv : forall s st op, inv s st -> inv (ramlog_step c s op) (spec_step elen st op).
  Proof. intros. destruct op; [now apply create_inv | now apply clear_inv]. Qed.

  Lemma run_inv_gen : forall ops s st, inv s st -> inv (ramlog_run c s ops) (fold_left (spec_step elen) ops st).
  Proof. induction ops; intros; simpl; auto. apply IHops. now apply step_inv. Qed.

  Lemma init_inv : forall mem s, length mem = cnt * es -> Forall (fun b => b = 0%N) mem ->
    ramlog_init c mem = Some s -> inv s (0%N, []).
  Proof.
    intros mem s L Z H. unfold ramlog_init in H. destruct (_ <? _); [discriminate|]. injection H as <-.
    split; [reflexivity|]. split; [reflexivity|]. split; [constructor|].
    apply repr_part with (junk := mem); auto. cbn. lia.
  Qed.

  Lemma run_inv : forall mem s ops, length mem = cnt * es -> Forall (fun b => b = 0%N) mem ->
    ramlog_init c mem = Some s -> inv (ramlog_run c s ops) (spec_run elen ops).
  Proof. intros. unfold spec_run. apply run_inv_gen. eapply init_inv; eauto. Qed.

  Lemma has_entries_nonempty : forall s l, repr s l -> has_entries s = negb (length l =? 0).
  Proof.
    pose proof es_pos.
    intros s l [junk F St En Ln Bu Lj Z | A B F St En LA NB Ln Bu]; unfold has_entries; rewrite F, En, St.
    - rewrite orb_false_r. f_equal. change 0 with (0 * es) at 1. apply eqb_mul_es.
    - rewrite orb_true_r. destruct (Nat.eqb_spec (length l) 0); auto. lia.
  Qed.

  Lemma get_size_correct : forall s l, Forall entry_ok l -> repr s l -> get_size c s = length (stream l).
  Proof.
    intros s l Ok R. pose proof (has_entries_nonempty s l R) as HE. unfold get_size. rewrite HE.
    destruct R as [junk F St En Ln Bu Lj Z | A B F St En LA NB Ln Bu]; rewrite length_stream by auto.
    - destruct (Nat.eqb_spec (length l) 0) as [Q|Q]; cbn [negb]; [now rewrite Q|].
      rewrite En, St. change 0 with (0 * es) at 1. rewrite eqb_mul_es.
      destruct (Nat.eqb_spec (length l) 0); [lia|reflexivity].
    - destruct (Nat.eqb_spec (length l) 0) as [Q|Q]; cbn [negb]; [lia|].
      rewrite En, St, Nat.eqb_refl. cbn [log_size c]. now rewrite Ln.
  Qed.

  Lemma read_correct : forall s l off contents len, Forall entry_ok l -> repr s l -> len <= length contents ->
    read_contents c s off contents len =
    (length (window off len (stream l)), splice contents 0 (window off len (stream l))).
  Proof.
    intros s l off contents len Ok R Hlen. pose proof (has_entries_nonempty s l R) as HE.
    pose proof (length_buffer s l Ok R) as LB.
    unfold read_contents. rewrite HE.
    destruct (Nat.eqb_spec (length l) 0) as [Q|Q]; cbn [negb].
    { destruct l; [|simpl in Q; lia]. unfold stream. cbn [map concat]. unfold window.
      rewrite skipn_nil, firstn_nil. cbn [length]. now rewrite splice_nil. }
    destruct R as [junk F St En Ln Bu Lj Z | A B F St En LA NB Ln Bu].
    - rewrite En, St. change 0 with (0 * es) at 1. rewrite eqb_mul_es.
      destruct (Nat.eqb_spec (length l) 0); [lia|]. cbn [skipn firstn app].
      rewrite Bu. rewrite <- (length_stream l) by auto. rewrite firstn_app_le by lia. rewrite firstn_all.
      rewrite buffer_copy_eq by auto. reflexivity.
    - rewrite En, St, Nat.eqb_refl. subst l. apply Forall_app in Ok. destruct Ok as [OB OA].
      assert (length (stream A) = length A * es) as LSA by now apply length_stream.
      assert (length (stream B) = length B * es) as LSB by now apply length_stream.
      assert (firstn (log_size c - length A * es) (skipn (length A * es) (log_buffer s)) = stream B) as E1.
      { rewrite Bu, <- LSA, skipn_app, skipn_all, Nat.sub_diag. cbn [skipn app].
        rewrite firstn_all2; auto. cbn [log_size c]. rewrite LSB, LSA. rewrite app_length in Ln. nia. }
      assert (firstn (length A * es) (log_buffer s) = stream A) as E2.
      { rewrite Bu, <- LSA. rewrite firstn_app_le by lia. apply firstn_all. }
      rewrite E1, E2. rewrite buffer_copy_eq by auto.
      set (w1 := window off len (stream B)).
      assert (length w1 <= len) as W1 by (unfold w1; rewrite length_window; lia).
      assert (length (splice contents 0 w1) = length contents) as LS1 by (apply length_splice; lia).
      rewrite buffer_copy_eq by (rewrite skipn_length, LS1; lia).
      rewrite stream_app, window_app. fold w1.
      set (w2 := window (off - length (stream B)) (len - length w1) (stream A)).
      rewrite app_length. f_equal.
      rewrite !splice_0, app_length.
      rewrite firstn_app, firstn_all, Nat.sub_diag, firstn_O, app_nil_r.
      rewrite <- app_assoc. f_equal. f_equal.
      rewrite skipn_app, skipn_all, Nat.sub_diag. cbn [skipn app]. now rewrite skipn_skipn.
  Qed.

  (* ---- identifiers ---- *)

  Definition id_at (first : N) (i : nat) : N := ((first + N.of_nat i) mod 2 ^ 32)%N.
  Definition ids_ok (first : N) (l : list (N * list N)) : Prop :=
    map fst l = map (id_at first) (seq 0 (length l)).

  Lemma ids_ok_snoc : forall first l e, ids_ok first l -> ids_ok first (l ++ [(id_at first (length l), e)]).
  Proof.
    intros. unfold ids_ok in *. rewrite app_length, seq_app, !map_app. cbn [length seq map fst].
    now rewrite H.
  Qed.

  Lemma id_at_add : forall first a b, id_at first (a + b) = id_at (first + N.of_nat a) b.
  Proof. intros. unfold id_at. f_equal. lia. Qed.

  Lemma ids_ok_app : forall first a b, ids_ok first (a ++ b) <->
    ids_ok first a /\ ids_ok (first + N.of_nat (length a)) b.
  Proof.
    intros. unfold ids_ok. rewrite app_length, seq_app, !map_app. cbn [Nat.add].
    assert (map (id_at first) (seq (length a) (length b)) =
            map (id_at (first + N.of_nat (length a))) (seq 0 (length b))) as E.
    { rewrite <- (Nat.add_0_r (length a)) at 1.
      rewrite <- seq_shift_plus || idtac.
      generalize 0 as k. induction (length b); intros; cbn [seq map]; auto. f_equal.
      - apply id_at_add.
      - replace (S (length a + k)) with (length a + S k) by lia. apply IHn. }
    rewrite E. split; intros H.
    - assert (length (map fst a) = length (map (id_at first) (seq 0 (length a)))) as L
        by (now rewrite !map_length, seq_length).
      split.
      + apply (f_equal (firstn (length a))) in H.
        rewrite !firstn_app, !map_length, seq_length, Nat.sub_diag, !firstn_O, !app_nil_r in H.
        rewrite !firstn_all2 in H; auto; rewrite map_length; try rewrite seq_length; lia.
      + apply (f_equal (skipn (length a))) in H.
        rewrite !skipn_app, !map_length, seq_length, Nat.sub_diag in H. cbn [skipn] in H.
        rewrite !skipn_all2 in H; auto; rewrite map_length; try rewrite seq_length; lia.
    - destruct H. now f_equal.
  Qed.

  Lemma ids_run : forall ops st first, ids_ok first (snd st) -> fst st = id_at first (length (snd st)) ->
    exists f, ids_ok f (snd (fold_left (spec_step elen) ops st)) /\
      fst (fold_left (spec_step elen) ops st) = id_at f (length (snd (fold_left (spec_step elen) ops st))).
  Proof.
    induction ops; intros [next ents] first H E; cbn [fold_left]; eauto. cbn [fst snd] in *.
    destruct a as [e|].
    - unfold spec_step at 2 4 6. destruct (length e =? elen).
      + eapply IHops with (first := first); cbn [fst snd].
        * rewrite E. now apply ids_ok_snoc.
        * rewrite app_length. cbn [length]. rewrite E. unfold id_at.
          rewrite N.add_mod_idemp_l by discriminate. f_equal. lia.
      + eapply IHops; eauto.
    - eapply IHops with (first := next); cbn [fst snd]; [reflexivity|].
      rewrite E. unfold id_at. cbn [length N.of_nat]. rewrite N.add_0_r. symmetry.
      apply N.mod_mod. discriminate.
  Qed.

  Lemma ids_spec_run : forall ops, exists f, ids_ok f (snd (spec_run elen ops)) /\
      fst (spec_run elen ops) = id_at f (length (snd (spec_run elen ops))).
  Proof. intros. apply ids_run with (first := 0%N); reflexivity. Qed.

  Lemma ids_ok_lastn : forall f l n, ids_ok f l -> exists f', ids_ok f' (lastn n l) /\
    id_at f (length l) = id_at f' (length (lastn n l)).
  Proof.
    intros. unfold lastn. set (k := length l - n).
    rewrite <- (firstn_skipn k l) in H. apply ids_ok_app in H. destruct H as [_ H].
    eexists. split; [exact H|]. rewrite <- id_at_add. f_equal.
    rewrite firstn_length, skipn_length. lia.
  Qed.

  (* ---- reading headers back ---- *)

  Lemma le_value_le16 : forall x, (x < 65536)%N -> le_value (le16 x) = x.
  Proof.
    intros. unfold le16, le_value. rewrite (N.mod_small (x / 256)) by (apply N.div_lt_upper_bound; lia).
    pose proof (N.div_mod x 256). lia.
  Qed.

  Lemma le_value_le32 : forall x, (x < 2 ^ 32)%N -> le_value (le32 x) = x.
  Proof.
    intros. unfold le32, le_value.
    change 16777216%N with (65536 * 256)%N.
    rewrite <- (N.div_div x 65536 256) by discriminate.
    change 65536%N with (256 * 256)%N. rewrite <- !(N.div_div x 256 256) by discriminate.
    pose proof (N.div_mod x 256 ltac:(discriminate)).
    pose proof (N.div_mod (x / 256) 256 ltac:(discriminate)).
    pose proof (N.div_mod (x / 256 / 256) 256 ltac:(discriminate)).
    assert (x / 256 / 256 / 256 < 256)%N.
    { rewrite !N.div_div by discriminate. apply N.div_lt_upper_bound; [discriminate|]. exact H. }
    rewrite (N.mod_small (x / 256 / 256 / 256)) by auto. lia.
  Qed.

  Lemma window_prefix : forall {A} (p x q : list A) o n, o + n <= length x ->
    window (length p + o) n (p ++ x ++ q) = window o n x.
  Proof.
    intros. unfold window. rewrite <- skipn_skipn, skipn_app, skipn_all, Nat.sub_diag. cbn [skipn app].
    rewrite skipn_app, firstn_app, skipn_length. replace (n - (length x - o)) with 0 by lia.
    rewrite firstn_O, app_nil_r. reflexivity.
  Qed.

  Lemma hdr_magic_enc : forall p e q, hdr_magic (p ++ encode e ++ q) (length p) = 0xCB%N.
  Proof.
    intros. unfold hdr_magic. rewrite app_nth2 by lia. rewrite Nat.sub_diag. reflexivity.
  Qed.

  Lemma hdr_id_enc : forall p e q, entry_ok e -> hdr_id (p ++ encode e ++ q) (length p) = fst e.
  Proof.
    intros. unfold hdr_id. rewrite window_prefix.
    - destruct H. change (window 3 4 (encode e)) with (le32 (fst e)). now apply le_value_le32.
    - rewrite length_encode by auto. unfold es, header_size. lia.
  Qed.

  Lemma hdr_length_enc : forall p e q, entry_ok e -> (N.of_nat es < 65536)%N -> hdr_length (p ++ encode e ++ q) (length p) = es.
  Proof.
    intros. unfold hdr_length. rewrite window_prefix by (rewrite length_encode by auto; unfold es, header_size; lia).
    destruct H as [H _].
    change (window 1 2 (encode e)) with (le16 (N.of_nat (7 + length (snd e)))).
    rewrite le_value_le16 by (rewrite H; unfold es, header_size in *; lia).
    rewrite H. unfold es, header_size. lia.
  Qed.

  (* ---- warm reset ---- *)

  Definition at_end (s : ramlog) (e : nat) (n : N) : ramlog :=
    {| log_start := log_start s; log_end := e; next_entry_id := n; is_full := is_full s; log_buffer := log_buffer s |}.

  Lemma scan_list : forall A fuel P post s prev first,
    Forall entry_ok P -> Forall entry_ok A -> is_full s = false ->
    log_buffer s = stream P ++ stream A ++ post -> log_end s = length P * es ->
    length P + length A <= cnt -> ids_ok first A -> (prev = true -> next_entry_id s = id_at first 0) ->
    find_last_loop (length A + fuel) c prev s =
    match A with
    | [] => find_last_loop fuel c prev s
    | _ => find_last_loop fuel c true
             (at_end s ((length P + length A) * es) (id_at first (length A)))
    end.
  Proof.
    induction A as [|a A IH]; intros fuel P post s prev first OP OA F Bu En Le Ids Pv; [reflexivity|].
    inversion OA; subst. cbn [length Nat.add find_last_loop].
    rewrite F, En. cbn [log_size entry_size c]. rewrite eqb_mul_es.
    cbn [length] in Le. destruct (Nat.eqb_spec (length P) cnt); [lia|]. cbn [negb andb].
    assert (length (stream P) = length P * es) as LP by now apply length_stream.
    rewrite stream_cons, <- app_assoc in Bu.
    assert (hdr_magic (log_buffer s) (length P * es) = 0xCB%N) as HM.
    { rewrite Bu, <- LP. apply hdr_magic_enc. }
    assert (hdr_id (log_buffer s) (length P * es) = fst a) as HI.
    { rewrite Bu, <- LP. now apply hdr_id_enc. }
    rewrite HM, HI. change (is_entry_start 203) with true. cbn iota.
    change (a :: A) with ([a] ++ A) in Ids. apply ids_ok_app in Ids. destruct Ids as [I1 I2].
    assert (fst a = id_at first 0) as Ia by (unfold ids_ok in I1; cbn in I1; congruence).
    assert (prev && negb (fst a =? next_entry_id s)%N = false) as C.
    { destruct prev; auto. rewrite Pv by auto. rewrite Ia, N.eqb_refl. reflexivity. }
    rewrite C.
    rewrite IH with (P := P ++ [a]) (post := post) (first := (first + N.of_nat (length [a]))%N);
      cbn [is_full log_start log_end next_entry_id log_buffer]; auto.
    - destruct A as [|a2 A].
      + f_equal. unfold at_end. f_equal.
        * cbn [length]. lia.
        * rewrite Ia. unfold id_at. cbn [length N.of_nat]. rewrite N.add_mod_idemp_l by discriminate. f_equal. lia.
        * auto.
      + f_equal. unfold at_end. cbn [log_start is_full log_buffer]. f_equal.
        * rewrite app_length. cbn [length]. f_equal. lia.
        * rewrite <- id_at_add. f_equal.
        * auto.
    - apply Forall_app; auto.
    - rewrite Bu, stream_app, stream_one, <- app_assoc. reflexivity.
    - rewrite app_length. cbn [length]. lia.
    - rewrite app_length. cbn [length]. lia.
    - intros _. rewrite Ia. rewrite <- id_at_add. unfold id_at. cbn [length N.of_nat]. rewrite N.add_mod_idemp_l by discriminate.
      f_equal. lia.
  Qed.

  Lemma scan_ne : forall A fuel post s first, A <> [] ->
    Forall entry_ok A -> is_full s = false ->
    log_buffer s = stream A ++ post -> log_end s = 0 -> length A <= cnt -> ids_ok first A ->
    find_last_loop (length A + fuel) c false s =
      find_last_loop fuel c true (at_end s (length A * es) (id_at first (length A))).
  Proof.
    intros. rewrite scan_list with (P := []) (post := post) (first := first); auto; try discriminate.
    destruct A; [congruence|]. reflexivity.
  Qed.

  Lemma find_last_full : forall fuel prev s, is_full s = true -> find_last_loop fuel c prev s = s.
  Proof. intros. destruct fuel; cbn [find_last_loop]; auto. rewrite H. reflexivity. Qed.

  Lemma find_last_at_end : forall fuel prev s, log_end s = log_size c -> find_last_loop fuel c prev s = s.
  Proof. intros. destruct fuel; cbn [find_last_loop]; auto. rewrite H, Nat.eqb_refl, andb_false_r. reflexivity. Qed.

  Lemma slots : log_size c / entry_size c = cnt.
  Proof. cbn [log_size entry_size c]. apply Nat.div_mul. pose proof es_pos. lia. Qed.

  Lemma id_at_differs : forall f a b, (N.of_nat a < N.of_nat b)%N -> (N.of_nat b - N.of_nat a < 2 ^ 32)%N ->
    id_at f a <> id_at f b.
  Proof.
    intros f a b L1 L2 E. unfold id_at in E.
    pose proof (N.div_mod (f + N.of_nat a) (2 ^ 32) ltac:(discriminate)) as D1.
    pose proof (N.div_mod (f + N.of_nat b) (2 ^ 32) ltac:(discriminate)) as D2.
    rewrite E in D1. nia.
  Qed.

  Lemma init_ok : forall mem, ramlog_init c mem =
    Some {| log_start := 0; log_end := 0; next_entry_id := 0; is_full := false; log_buffer := mem |}.
  Proof.
    intros. unfold ramlog_init. cbn [log_size entry_size c].
    destruct (Nat.ltb_spec (cnt * es) es); auto. pose proof es_pos. nia.
  Qed.

  Lemma warm_reset : forall s l first, Forall entry_ok l -> repr s l -> l <> [] -> ids_ok first l ->
    next_entry_id s = id_at first (length l) -> (N.of_nat cnt < 2 ^ 32)%N ->
    ramlog_init_append_existing c (log_buffer s) = Some s.
  Proof.
    intros s l first Ok R NE Ids Nx Hc. pose proof es_pos as EP.
    unfold ramlog_init_append_existing. rewrite init_ok. f_equal. unfold find_last_entry. rewrite slots.
    set (s0 := {| log_start := 0; log_end := 0; next_entry_id := 0; is_full := false; log_buffer := log_buffer s |}).
    destruct R as [junk F St En Ln Bu Lj Z | A B F St En LA NB Ln Bu].
    - replace (S (S cnt)) with (length l + S (S cnt - length l)) by lia.
      rewrite scan_list with (P := []) (post := junk) (first := first); auto; try reflexivity; try (cbn [length]; lia); try discriminate.
      destruct l as [|x l]; [congruence|]. set (L := x :: l) in *.
      cbn [find_last_loop at_end is_full log_end s0 log_buffer].
      cbn [length Nat.add log_size c]. rewrite eqb_mul_es. destruct (Nat.eqb_spec (length L) cnt); [lia|].
      cbn [negb andb]. 
      assert (hdr_magic (log_buffer s) (length L * es) = 0%N) as M.
      { rewrite Bu. unfold hdr_magic. rewrite <- length_stream by auto. rewrite app_nth2 by lia.
        rewrite Nat.sub_diag. destruct junk as [|j0 junk]; [reflexivity|]. inversion Z; subst. reflexivity. }
      rewrite M. cbn [is_entry_start N.land N.eqb]. cbn [at_end log_end].
      rewrite eqb_mul_es. destruct (Nat.eqb_spec (length L) cnt); [lia|].
      destruct s; cbn in *. unfold at_end, s0. cbn. subst. reflexivity.
    - subst l. apply Forall_app in Ok. destruct Ok as [OB OA]. apply ids_ok_app in Ids. destruct Ids as [IB IA].
      rewrite app_length in Ln, Nx.
      destruct A as [|a A].
      + cbn [stream map concat app length Nat.mul Nat.add] in *. rewrite Nat.add_0_r in *.
        replace (S (S cnt)) with (length B + 2) by lia.
        rewrite scan_list with (P := []) (post := []) (first := first); auto; try reflexivity; try (cbn [length]; lia); try discriminate.
        2:{ cbn [log_buffer s0]. rewrite Bu. now rewrite app_nil_r. }
        destruct B as [|b B]; [congruence|]. set (L := b :: B) in *.
        rewrite find_last_at_end by (cbn [at_end log_end log_size c length Nat.add]; now rewrite Ln).
        cbn [at_end log_end log_size c length Nat.add]. rewrite Ln, Nat.eqb_refl.
        destruct s; cbn in *. subst. reflexivity.
      + set (AA := a :: A) in *.
        replace (S (S cnt)) with (length AA + S (S cnt - length AA)) by lia.
        rewrite scan_ne with (post := stream B) (first := (first + N.of_nat (length B))%N);
          auto; try reflexivity; try lia; try discriminate.
        cbn [find_last_loop at_end is_full log_end s0 log_buffer next_entry_id].
        cbn [log_size c]. rewrite eqb_mul_es.
        destruct B as [|b B]; [congruence|]. set (BB := b :: B) in *.
        assert (0 < length BB) by (unfold BB; cbn [length]; lia).
        destruct (Nat.eqb_spec (length AA) cnt); [lia|]. cbn [negb andb].
        pose proof (Forall_inv OB) as Ob.
        assert (hdr_magic (log_buffer s) (length AA * es) = 0xCB%N) as HM.
        { rewrite Bu. unfold BB. rewrite stream_cons. rewrite <- length_stream by auto. apply hdr_magic_enc. }
        assert (hdr_id (log_buffer s) (length AA * es) = fst b) as HI.
        { rewrite Bu. unfold BB. rewrite stream_cons. rewrite <- length_stream by auto. now apply hdr_id_enc. }
        rewrite HM, HI. change (is_entry_start 203) with true. cbn [next_entry_id].
        assert (fst b = id_at first 0) as Ib.
        { change BB with ([b] ++ B) in IB. apply ids_ok_app in IB. destruct IB as [IB _].
          unfold ids_ok in IB. cbn in IB. congruence. }
        rewrite <- id_at_add. destruct (N.eqb_spec (fst b) (id_at first (length BB + length AA))) as [Q|Q].
        { exfalso. rewrite Ib in Q. revert Q. apply id_at_differs; lia. }
        cbn [negb andb]. rewrite find_last_full by reflexivity. cbn [at_end log_end log_size c]. rewrite eqb_mul_es.
        destruct (Nat.eqb_spec (length AA) cnt); [lia|].
        destruct s; cbn in *. subst. reflexivity.
  Qed.

  Lemma warm_reset_empty : forall s, repr s [] ->
    ramlog_init_append_existing c (log_buffer s) =
      Some {| log_start := 0; log_end := 0; next_entry_id := 0; is_full := false; log_buffer := log_buffer s |}.
  Proof.
    intros s R. pose proof es_pos as EP.
    unfold ramlog_init_append_existing. rewrite init_ok. f_equal. unfold find_last_entry. rewrite slots.
    destruct R as [junk F St En Ln Bu Lj Z | A B F St En LA NB Ln Bu].
    - cbn [find_last_loop is_full log_end log_buffer log_size c]. 
      destruct (Nat.eqb_spec 0 (cnt * es)); [nia|]. cbn [negb andb].
      assert (hdr_magic (log_buffer s) 0 = 0%N) as M.
      { rewrite Bu. unfold hdr_magic. cbn [stream map concat app]. destruct junk; [reflexivity|]. now inversion Z. }
      rewrite M. cbn [is_entry_start N.land N.eqb log_end].
      destruct (Nat.eqb_spec 0 (cnt * es)); [nia|]. reflexivity.
    - destruct B; [congruence|]. discriminate.
  Qed.

  (* ---- copying to another log ---- *)

  Lemma copy_run : forall T x fuel P post s, Forall entry_ok (x :: T) -> (N.of_nat es < 65536)%N ->
    log_buffer s = P ++ stream (x :: T) ++ post ->
    (forall k, 0 < k <= length T -> length P + k * es <> log_end s /\ length P + k * es < log_size c) ->
    copy_entries_loop (length (x :: T) + fuel) c s (length P) =
    let last := length P + length (x :: T) * es in
    let pos := if log_size c <=? last then 0 else last in
    if pos =? log_end s then Some (map snd (x :: T))
    else match copy_entries_loop fuel c s pos with
         | None => None
         | Some r => Some (map snd (x :: T) ++ r)
         end.
  Proof.
    induction T as [|y T IH]; intros x fuel P post s Ok Hes Bu Hk; inversion Ok; subst.
    - cbn [length Nat.add copy_entries_loop]. rewrite Bu. rewrite stream_cons, <- app_assoc.
      rewrite hdr_length_enc by auto. cbn zeta.
      assert (window (length P + header_size) (es - header_size) (P ++ encode x ++ stream [] ++ post) = snd x) as W.
      { rewrite window_prefix by (rewrite length_encode by auto; unfold es; lia).
        replace (es - header_size) with (length (snd x)) by (destruct H1 as [-> _]; unfold es; lia).
        unfold window. change (skipn header_size (encode x)) with (snd x). apply firstn_all. }
      rewrite W. replace (length P + 1 * es) with (length P + es) by lia. reflexivity.
    - change (length (x :: y :: T) + fuel) with (S (length (y :: T) + fuel)).
      cbn [copy_entries_loop].
      assert (hdr_length (log_buffer s) (length P) = es) as HL.
      { rewrite Bu, stream_cons, <- app_assoc. now apply hdr_length_enc. }
      assert (window (length P + header_size) (es - header_size) (log_buffer s) = snd x) as W.
      { rewrite Bu, stream_cons, <- app_assoc. rewrite window_prefix by (rewrite length_encode by auto; unfold es; lia).
        replace (es - header_size) with (length (snd x)) by (destruct H1 as [-> _]; unfold es; lia).
        unfold window. change (skipn header_size (encode x)) with (snd x). apply firstn_all. }
      rewrite HL. cbn zeta.
      rewrite W. destruct (Hk 1) as [K1 K2]; [cbn [length]; lia|]. rewrite Nat.mul_1_l in K1, K2.
      destruct (Nat.leb_spec (log_size c) (length P + es)); [lia|].
      destruct (Nat.eqb_spec (length P + es) (log_end s)); [lia|].
      replace (length P + es) with (length (P ++ encode x)) by (rewrite app_length, length_encode by auto; reflexivity).
      rewrite IH with (post := post); auto.
      + cbn zeta. rewrite app_length, length_encode by auto.
        replace (length P + es + length (y :: T) * es) with (length P + length (x :: y :: T) * es) by (cbn [length]; lia).
        destruct (_ =? log_end s); [reflexivity|]. destruct (copy_entries_loop _ _ _ _); reflexivity.
      + rewrite Bu, stream_cons, <- !app_assoc. reflexivity.
      + intros k Hk'. rewrite app_length, length_encode by auto.
        destruct (Hk (S k)) as [Q1 Q2]; [cbn [length] in *; lia|]. split; nia.
  Qed.

  Lemma copy_entries_correct : forall s l, Forall entry_ok l -> repr s l -> (N.of_nat es < 65536)%N ->
    copy_entries c s = Some (map snd l).
  Proof.
    intros s l Ok R Hes. pose proof es_pos as EP. pose proof (has_entries_nonempty s l R) as HE.
    unfold copy_entries. unfold has_entries in HE. rewrite Nat.eqb_sym, HE, slots.
    destruct (Nat.eqb_spec (length l) 0) as [Q|Q]; cbn [negb].
    { destruct l; [reflexivity|simpl in Q; lia]. }
    destruct R as [junk F St En Ln Bu Lj Z | A B F St En LA NB Ln Bu].
    - rewrite St. destruct l as [|x T]; [simpl in Q; lia|].
      replace (S cnt) with (length (x :: T) + (S cnt - length (x :: T))) by lia.
      change 0 with (length (@nil N)).
      rewrite copy_run with (post := junk); auto.
      + cbn zeta. cbn [length Nat.add] in *. rewrite En. cbn [log_size c].
        destruct (Nat.leb_spec (cnt * es) (S (length T) * es)); [nia|]. now rewrite Nat.eqb_refl.
      + intros k Hk. cbn [length Nat.add log_size c] in *. rewrite En. split; nia.
    - rewrite St. subst l. apply Forall_app in Ok. destruct Ok as [OB OA]. rewrite app_length in Ln.
      destruct B as [|b B]; [congruence|]. set (BB := b :: B) in *.
      assert (length (stream A) = length A * es) as LSA by now apply length_stream.
      replace (S cnt) with (length BB + (S (length A))) by lia.
      rewrite <- LSA at 1.
      rewrite (copy_run B b _ (stream A) []); auto.
      + fold BB. cbn zeta. rewrite LSA.
        replace (length A * es + length BB * es) with (log_size c) by (cbn [log_size c]; nia).
        rewrite Nat.leb_refl. rewrite En.
        destruct A as [|a A]; [rewrite app_nil_r; reflexivity|]. set (AA := a :: A) in *.
        assert (0 < length AA) by (unfold AA; cbn [length]; lia).
        destruct (Nat.eqb_spec 0 (length AA * es)); [nia|].
        replace (S (length AA)) with (length AA + 1) by lia.
        change 0 with (length (@nil N)).
        rewrite (copy_run A a 1 [] (stream BB)); auto.
        * fold AA. cbn zeta. cbn [length Nat.add]. cbn [log_size c].
          assert (0 < length BB) by (unfold BB; cbn [length]; lia).
          destruct (Nat.leb_spec (cnt * es) (length AA * es)); [nia|].
          rewrite En, Nat.eqb_refl. now rewrite map_app.
        * intros k Hk. cbn [length Nat.add log_size c] in *. rewrite En. unfold AA in *. cbn [length] in *. split; nia.
      + rewrite Bu, app_nil_r. reflexivity.
      + intros k Hk. rewrite LSA, En. cbn [log_size c]. unfold BB in *. cbn [length] in *. split; nia.
  Qed.
End Log.
