(** Reading the flash log, its size, and starting it from flash. *)
From Coq Require Import List NArith Bool Arith Lia ZifyBool ZifyNat ZifyN.
From Verif Require Import Base RamLog_Model RamLog_Spec FlashLog_Model FlashLog_Spec FlashLog_Scan_Proofs FlashLog_Save_Proofs FlashLog_Proofs.
Import ListNotations.

Lemma window_app : forall {X} (x y : list X) o n,
  window o n (x ++ y) = window o n x ++ window (o - length x) (n - length (window o n x)) y.
Proof.
  intros X x y o n. unfold window. rewrite skipn_app, firstn_app. f_equal. f_equal.
  rewrite firstn_length. lia.
Qed.
Lemma window_clamp : forall {X} (x : list X) o n,
  window (if o <? length x then o else length x)
    (if n <? length x - (if o <? length x then o else length x) then n else length x - (if o <? length x then o else length x)) x = window o n x.
Proof.
  intros X x o n. unfold window. destruct (o <? length x) eqn:E.
  - destruct (n <? length x - o) eqn:F; [reflexivity|].
    rewrite !firstn_all2 by (rewrite skipn_length; lia). reflexivity.
  - rewrite !skipn_all2 by lia. rewrite !firstn_nil. reflexivity.
Qed.
Lemma length_window' : forall {X} (x : list X) o n,
  length (window o n x) = if n <? length x - (if o <? length x then o else length x) then n else length x - (if o <? length x then o else length x).
Proof.
  intros X x o n. unfold window. rewrite firstn_length, skipn_length. destruct (o <? length x) eqn:E.
  - destruct (n <? length x - o) eqn:F; lia.
  - destruct (n <? length x - length x) eqn:F; lia.
Qed.
Lemma rd_window : forall m a n o k, o + k <= n -> rd m (a + o) k = window o k (rd m a n).
Proof.
  intros m a n o k H. replace n with (o + (k + (n - o - k))) by lia. rewrite !rd_split. unfold window.
  rewrite skipn_app, length_rd. rewrite skipn_all2 by (rewrite length_rd; lia). cbn [app]. rewrite Nat.sub_diag. cbn [skipn].
  rewrite firstn_app, length_rd, Nat.sub_diag. cbn [firstn]. rewrite app_nil_r, firstn_all2 by (rewrite length_rd; lia). reflexivity.
Qed.
Lemma window_prefix : forall {X} (x y : list X) o k, o + k <= length x -> window o k (x ++ y) = window o k x.
Proof.
  intros X x y o k H. rewrite window_app. replace (k - length (window o k x)) with 0; [unfold window; cbn [firstn]; apply app_nil_r|].
  unfold window. rewrite firstn_length, skipn_length. lia.
Qed.

Section Reboot.
Variable SS NS : nat.
Hypothesis SS_low : 7 < SS.
Hypothesis SS_high : (N.of_nat SS < 2 ^ 15)%N.
Hypothesis NS_low : 2 <= NS.
Notation inv := (inv SS NS).
Notation holds := (holds SS NS).
Notation closed := (closed SS).
Notation sgood := (sgood SS).

Definition tail_stream (A : list sect) (k : nat) : list N := stream (concat (map fst (skipn k A))).

Lemma tail_stream_step : forall A k, k < length A -> tail_stream A k = stream (fst (nth k A none)) ++ tail_stream A (S k).
Proof.
  clear. intros A k; revert A; induction k as [|k IH]; intros [|x A] H; cbn [length] in H; try lia.
  - unfold tail_stream. cbn [skipn map concat nth]. apply stream_app.
  - unfold tail_stream in *. cbn [skipn nth]. apply IH; lia.
Qed.

Lemma read_sectors_spec : forall s m A f k o n, holds m (f_start s) (f_used s) A -> Forall (fun x => fst x <> []) A -> f + k = NS ->
  exists o', read_sectors SS NS f s m ((f_start s + k) mod NS) o n =
    (window o n (tail_stream A k), o', n - length (window o n (tail_stream A k))) /\
    (n - length (window o n (tail_stream A k)) <> 0 -> o' = o - length (tail_stream A k)).
Proof.
  intros s m A f; induction f as [|f IH]; intros k o n H NE K.
  - assert (T : tail_stream A k = []).
    { unfold tail_stream. rewrite skipn_all2; [reflexivity|]. pose proof (h_len _ _ _ _ _ _ H). lia. }
    rewrite T. cbn [read_sectors]. exists o. unfold window. rewrite skipn_nil, firstn_nil. cbn [length].
    rewrite !Nat.sub_0_r. split; [reflexivity|auto].
  - cbn [read_sectors]. rewrite (h_used _ _ _ _ _ _ H) by lia.
    set (x := nth k A none).
    destruct (Nat.lt_ge_cases k (length A)) as [L|L].
    + assert (XN : fst x <> []) by (apply (proj1 (Forall_forall _ _) NE); apply nth_In; exact L).
      pose proof (stream_nonempty _ XN) as SN.
      assert (XG : sgood x) by (apply (proj1 (Forall_forall _ _) (h_good _ _ _ _ _ _ H)); apply nth_In; exact L).
      destruct (n =? 0) eqn:N0.
      { assert (n = 0) by lia; subst n. cbn [negb andb]. exists o. unfold window. cbn [firstn length Nat.sub]. split; [reflexivity|congruence]. }
      replace (length (stream (fst x)) =? 0) with false by (symmetry; apply Nat.eqb_neq; clear - SN; lia). cbn [negb andb].
      set (u := length (stream (fst x))) in *.
      set (oo := if o <? u then o else u). set (nn := if n <? u - oo then n else u - oo).
      rewrite Nat.add_mod_idemp_l by lia. rewrite <- Nat.add_assoc.
      destruct (IH (k + 1) (o - oo) (n - nn) H NE ltac:(lia)) as (o' & R & RO). rewrite R.
      rewrite (tail_stream_step A k L). fold x. replace (k + 1) with (S k) in * by lia.
      set (T := tail_stream A (S k)) in *.
      assert (W : rd m (SS * ((f_start s + k) mod NS) + oo) nn = window o n (stream (fst x))).
      { rewrite (rd_window _ _ SS); [|destruct XG as [_ XG]; unfold sdata in XG; rewrite app_length in XG; unfold nn, oo; fold u in XG; clear - XG; destruct (o <? u) eqn:?, (n <? _) eqn:?; lia].
        rewrite (h_flash _ _ _ _ _ _ H) by lia. fold x. unfold sbytes, sdata. rewrite <- app_assoc.
        rewrite window_prefix by (fold u; unfold nn, oo; clear; destruct (o <? u) eqn:?, (n <? _) eqn:?; lia).
        apply window_clamp. }
      assert (LW : length (window o n (stream (fst x))) = nn) by apply length_window'.
      assert (OO : o - oo = o - u) by (unfold oo; clear - SN; destruct (o <? u) eqn:?; lia).
      exists o'. rewrite W, window_app, app_length, LW. fold u. rewrite <- OO. split.
      * f_equal. clear; lia.
      * intros D. rewrite app_length. fold u. rewrite RO by (clear - D; lia). clear - OO; lia.
    + assert (X0 : x = none) by (apply nth_overflow; exact L). rewrite X0. cbn [none fst stream map concat length Nat.eqb negb]. rewrite andb_false_r.
      assert (T : tail_stream A k = []) by (unfold tail_stream; rewrite skipn_all2 by exact L; reflexivity).
      rewrite T. exists o. unfold window. rewrite skipn_nil, firstn_nil. cbn [length]. rewrite !Nat.sub_0_r. split; [reflexivity|auto].
Qed.

Lemma read_spec : forall s m d A B off o n, inv s m d A B off ->
  read_contents SS NS s m o n = Some (window o n (stream (concat (map fst A) ++ B))).
Proof.
  intros s m d A B off o n [I1 I2 I3 I4 I5 I6 I7 I8 I9].
  destruct (read_sectors_spec s m A NS 0 o n I1 I2 ltac:(lia)) as (o' & R & RO).
  rewrite Nat.add_0_r, Nat.mod_small in R by apply (h_start _ _ _ _ _ _ I1).
  unfold read_contents. rewrite R. unfold tail_stream in *. cbn [skipn] in *.
  set (T := stream (concat (map fst A))) in *.
  assert (LB : length (f_buf s) = length (stream B) + if f_term s then 7 else 0).
  { rewrite I4, app_length. destruct (f_term s); reflexivity. }
  replace (f_term s && (length (f_buf s) <? header_size)) with false by (unfold header_size; clear - LB; destruct (f_term s); cbn [andb]; lia).
  replace (if f_term s then length (f_buf s) - header_size else length (f_buf s)) with (length (stream B))
    by (unfold header_size; clear - LB; destruct (f_term s); lia).
  f_equal. rewrite stream_app, window_app. fold T. f_equal.
  set (n' := n - length (window o n T)) in *.
  rewrite I4, window_prefix by (clear; destruct (o' <? length (stream B)) eqn:?, (n' <? _) eqn:?; lia).
  rewrite window_clamp. destruct (Nat.eq_dec n' 0) as [->|D]; [reflexivity|]. rewrite (RO D). reflexivity.
Qed.

Lemma fold_sum : forall l a, fold_left Nat.add l a = a + list_sum l.
Proof. clear. induction l as [|x l IH]; intros a; cbn [fold_left list_sum fold_right]; [lia|]. rewrite IH. unfold list_sum. lia. Qed.

Lemma list_sum_cons : forall x l, list_sum (x :: l) = x + list_sum l.
Proof. reflexivity. Qed.

Lemma sum_stream : forall (A : list sect) n, length A <= n ->
  list_sum (map (fun k => length (stream (fst (nth k A none)))) (seq 0 n)) = length (stream (concat (map fst A))).
Proof.
  clear. induction A as [|x A IH]; intros n H.
  - cbn [map concat stream length]. clear H. induction (seq 0 n) as [|k l I]; [reflexivity|]. cbn [map]. rewrite list_sum_cons, I.
    destruct k; reflexivity.
  - destruct n as [|n]; [cbn in H; lia|]. cbn [seq map concat fst length nth] in *. rewrite list_sum_cons, stream_app, app_length.
    f_equal. rewrite <- seq_shift, map_map. cbn [nth]. apply IH. lia.
Qed.

Lemma sum_rotate : forall (l : list nat) start, start < NS -> length l = NS ->
  list_sum (map (fun k => nth ((start + k) mod NS) l 0) (seq 0 NS)) = list_sum l.
Proof.
  clear SS SS_low SS_high. intros l start H L.
  replace (map (fun k => nth ((start + k) mod NS) l 0) (seq 0 NS)) with (skipn start l ++ firstn start l).
  - rewrite list_sum_app, Nat.add_comm, <- list_sum_app, firstn_skipn. reflexivity.
  - apply nth_ext with 0 0; rewrite app_length, skipn_length, firstn_length.
    + rewrite map_length, seq_length. lia.
    + intros k K. rewrite (nth_indep (map _ _) 0 (nth ((start + 0) mod NS) l 0)) by (rewrite map_length, seq_length; lia).
      rewrite (map_nth (fun k => nth ((start + k) mod NS) l 0)), seq_nth by lia. rewrite Nat.add_0_l, mod_pos by lia.
      destruct (start + k <? NS) eqn:E.
      * rewrite app_nth1 by (rewrite skipn_length; lia). rewrite <- (firstn_skipn start l) at 2. rewrite app_nth2; rewrite firstn_length; [f_equal; lia|lia].
      * rewrite app_nth2 by (rewrite skipn_length; lia). rewrite skipn_length.
        rewrite <- (firstn_skipn start l) at 3. rewrite (app_nth1 (firstn start l)) by (rewrite firstn_length; lia). f_equal. lia.
Qed.

Lemma size_spec : forall s m d A B off, inv s m d A B off -> get_size s = length (stream (concat (map fst A) ++ B)).
Proof.
  intros s m d A B off [I1 I2 I3 I4 I5 I6 I7 I8 I9]. unfold get_size. rewrite fold_sum.
  rewrite <- (sum_rotate (f_used s) (f_start s)); [|apply (h_start _ _ _ _ _ _ I1)|apply (h_used_len _ _ _ _ _ _ I1)].
  rewrite (map_ext_in _ (fun k => length (stream (fst (nth k A none))))).
  - rewrite sum_stream by apply (h_len _ _ _ _ _ _ I1). rewrite stream_app, app_length, I4, app_length.
    destruct (f_term s); rewrite ?length_term; unfold header_size; cbn [length]; lia.
  - intros k K. apply in_seq in K. apply (h_used _ _ _ _ _ _ I1). lia.
Qed.

(** The sectors in the order of their addresses. *)
Definition physical (start : nat) (A : list sect) : list sect := map (fun i => nth ((i + (NS - start)) mod NS) A none) (seq 0 NS).

Lemma length_physical : forall start A, length (physical start A) = NS.
Proof. intros; unfold physical; rewrite map_length, seq_length; reflexivity. Qed.
Lemma nth_physical : forall start A i, i < NS -> nth i (physical start A) none = nth ((i + (NS - start)) mod NS) A none.
Proof.
  clear. intros start A i H. unfold physical.
  rewrite (nth_indep _ none (nth ((0 + (NS - start)) mod NS) A none)) by (rewrite map_length, seq_length; exact H).
  rewrite (map_nth (fun i => nth ((i + (NS - start)) mod NS) A none)), seq_nth by exact H. reflexivity.
Qed.
Lemma back : forall start i, start < NS -> i < NS -> (start + (i + (NS - start)) mod NS) mod NS = i.
Proof.
  clear SS SS_low SS_high. intros start i S I. rewrite Nat.add_mod_idemp_r by lia. replace (start + (i + (NS - start))) with (i + 1 * NS) by lia.
  rewrite Nat.mod_add by lia. apply Nat.mod_small; exact I.
Qed.

Lemma physical_flash : forall m start used A i, holds m start used A -> i < NS ->
  rd m (SS * i) SS = sbytes SS (nth i (physical start A) none) /\ nth i used 0 = length (stream (fst (nth i (physical start A) none))).
Proof.
  intros m start used A i [H1 H2 H3 H4 H5 H6] L. rewrite nth_physical by exact L.
  assert (K : (i + (NS - start)) mod NS < NS) by (apply Nat.mod_upper_bound; lia).
  specialize (H3 _ K). specialize (H5 _ K). rewrite back in H3, H5 by assumption. split; assumption.
Qed.

Lemma physical_good : forall start A, Forall sgood A -> Forall sgood (physical start A).
Proof.
  intros start A H. unfold physical. apply Forall_forall. intros x K. apply in_map_iff in K. destruct K as (i & <- & _).
  destruct (Nat.lt_ge_cases ((i + (NS - start)) mod NS) (length A)) as [L|L].
  - apply (proj1 (Forall_forall _ _) H). apply nth_In; exact L.
  - rewrite nth_overflow by exact L. apply (sgood_none SS NS); assumption.
Qed.

Lemma physical_zero : forall A, length A <= NS -> physical 0 A = A ++ repeat none (NS - length A).
Proof.
  intros A L. apply nth_ext with none none; rewrite length_physical.
  - rewrite app_length, repeat_length. lia.
  - intros i H. rewrite nth_physical by exact H. rewrite Nat.sub_0_r. replace (i + NS) with (i + 1 * NS) by lia.
    rewrite Nat.mod_add, Nat.mod_small by lia. destruct (Nat.lt_ge_cases i (length A)).
    + rewrite app_nth1 by assumption. reflexivity.
    + rewrite app_nth2 by assumption. rewrite nth_overflow by assumption. rewrite nth_rep by lia. reflexivity.
Qed.

Lemma physical_full : forall start A, 0 < start -> start < NS -> length A = NS ->
  physical start A = skipn (NS - start) A ++ firstn (NS - start) A.
Proof.
  intros start A P S L. apply nth_ext with none none; rewrite length_physical.
  - rewrite app_length, skipn_length, firstn_length. lia.
  - intros i H. rewrite nth_physical by exact H. rewrite mod_pos by lia. set (q := NS - start).
    destruct (i + q <? NS) eqn:E.
    + rewrite app_nth1 by (rewrite skipn_length; lia). rewrite <- (firstn_skipn q A) at 1.
      rewrite app_nth2; rewrite firstn_length; [f_equal; lia|lia].
    + rewrite app_nth2 by (rewrite skipn_length; lia). rewrite skipn_length.
      rewrite <- (firstn_skipn q A) at 1. rewrite app_nth1 by (rewrite firstn_length; lia). f_equal. lia.
Qed.

(** The newest run of sectors: all closed, or the last one open. *)
Definition run_state (n off : nat) (z : N) : scan :=
  if off =? 0 then Scan 0 (SS * n) z z 0 else Scan 1 (SS * (n - 1) + off) z z 0.
Definition newest (A : list sect) (off : nat) : Prop :=
  (off = 0 /\ Forall closed A) \/
  (exists A' es, A = A' ++ [(es, false)] /\ Forall closed A' /\ off = length (stream es) /\ off + 7 <= SS).

Lemma new_run : forall A off a rest, A <> [] -> newest A off -> Forall sgood A -> Forall (fun x => fst x <> []) A ->
  numbered a (concat (map fst A)) ->
  sectors_effect SS 0 (Scan 0 0 0 0 0) (A ++ rest) =
  sectors_effect SS (length A) (run_state (length A) off (a + N.of_nat (length (concat (map fst A))))) rest.
Proof.
  intros A off a rest AN NW G NE NU. unfold run_state. destruct NW as [(O & CL)|(A' & es & EA & CL & O & O7)].
  - subst off. cbn [Nat.eqb].
    rewrite (sectors_new_closed SS SS_low SS_high A 0 (Scan 0 0 0 0 0) a rest); cbn [s_found s_addr s_prev s_start Nat.add]; auto; lia.
  - assert (EN : es <> []).
    { rewrite EA in NE. apply Forall_app in NE. destruct NE as [_ NE]. inversion_clear NE as [|? ? K _]. exact K. }
    pose proof (stream_nonempty es EN) as SN. rewrite <- O in SN. replace (off =? 0) with false by (clear - SN; lia).
    rewrite EA in G, NE, NU |- *. apply Forall_app in G. destruct G as [G1 G2]. inversion_clear G2 as [|? ? G3 _].
    apply Forall_app in NE. destruct NE as [NE1 _]. rewrite map_app, concat_app in NU |- *. cbn [map concat fst] in NU |- *. rewrite app_nil_r in NU |- *.
    apply numbered_app in NU. destruct NU as [NU1 NU2]. rewrite <- app_assoc, !app_length. cbn [length app].
    assert (AD : length A' + 1 - 1 = length A') by lia. rewrite AD.
    assert (D : A' = [] \/ A' <> []) by (destruct A'; [left|right]; congruence). destruct D as [D|D].
    + subst A'. cbn [app length map concat sectors_effect Nat.add] in *. rewrite N.add_0_r in NU2.
      rewrite (sector_new_open SS SS_low SS_high 0 (Scan 0 0 0 0 0) es a); cbn [s_found s_addr s_prev s_start]; auto; try lia.
      rewrite <- O. reflexivity.
    + rewrite (sectors_new_closed SS SS_low SS_high A' 0 (Scan 0 0 0 0 0) a); cbn [s_found s_addr s_prev s_start Nat.add]; auto; try lia.
      cbn [sectors_effect].
      rewrite (sector_new_open SS SS_low SS_high (length A') _ es (a + N.of_nat (length (concat (map fst A'))))); cbn [s_found s_addr s_prev s_start]; auto; try lia.
      rewrite <- O. f_equal. f_equal; lia.
Qed.

Lemma run_settled : forall n off z, (off = 0 \/ off + 7 <= SS) -> settled SS (run_state n off z).
Proof.
  intros n off z H. unfold settled, run_state. destruct (off =? 0) eqn:E; cbn [s_addr].
  - rewrite <- (Nat.add_0_r (SS * n)), mod_in by lia. lia.
  - rewrite mod_in by lia. lia.
Qed.

Lemma newest_off : forall A off, newest A off -> off = 0 \/ off + 7 <= SS.
Proof. intros A off [[O _]|(A' & es & _ & _ & _ & O)]; auto. Qed.

Lemma inv_next : forall s m d A B off, inv s m d A B off -> newest A off /\
  f_next s = (if off =? 0 then SS * ((f_start s + length A) mod NS) else SS * ((f_start s + (length A - 1)) mod NS) + off).
Proof.
  intros s m d A B off [I1 I2 I3 I4 I5 I6 I7 I8 I9]. destruct I3 as [(O & CL & NX)|(A' & es & EA & CL & O & O7 & NX)].
  - split; [left; auto|]. subst off. exact NX.
  - split; [right; exists A', es; auto|].
    assert (EN : es <> []).
    { rewrite EA in I2. apply Forall_app in I2. destruct I2 as [_ NE]. inversion_clear NE as [|? ? K _]. exact K. }
    pose proof (stream_nonempty es EN) as SN. rewrite <- O in SN. replace (off =? 0) with false by (clear - SN; lia).
    rewrite NX, EA, app_length. cbn [length]. replace (length A' + 1 - 1) with (length A') by lia. reflexivity.
Qed.

Lemma scan_result : forall s m A B off a, inv s m false A B off -> numbered a (concat (map fst A)) ->
  exists f addr p, sectors_effect SS 0 (Scan 0 0 0 0 0) (physical (f_start s) A) =
    Scan f addr (match A with [] => 0 | _ => a + N.of_nat (length (concat (map fst A))) end)%N p (f_start s) /\
  f_next s = if NS * SS <=? addr then 0 else addr.
Proof.
  intros s m A B off a IV NU. destruct (inv_next _ _ _ _ _ _ IV) as [NW NX]. pose proof (newest_off _ _ NW) as O7.
  pose proof IV as [I1 I2 I3 I4 I5 I6 I7 I8 I9]. clear I3 IV. pose proof (h_len _ _ _ _ _ _ I1) as LN. pose proof (h_good _ _ _ _ _ _ I1) as G.
  pose proof (h_start _ _ _ _ _ _ I1) as SL. clear I1 I4 I5 I6 I7 I9.
  destruct (Nat.eq_dec (f_start s) 0) as [S0|S0].
  - rewrite S0 in *. rewrite physical_zero by exact LN. rewrite !Nat.add_0_l in NX.
    assert (D : A = [] \/ A <> []) by (destruct A; [left|right]; congruence). destruct D as [D|D].
    + subst A. destruct NW as [[-> _]|(A' & es & K & _)]; [|destruct A'; discriminate].
      cbn [length app] in *. rewrite Nat.sub_0_r. rewrite sectors_blank by (cbn [s_found s_addr]; try lia; try (unfold settled; cbn [s_addr]; rewrite Nat.mod_0_l by lia; lia); intros _; apply Nat.mod_0_l; lia).
      cbn [s_addr s_id s_prev s_start]. exists 1, 0, 0%N. split; [reflexivity|]. cbn [Nat.eqb] in NX. rewrite NX, Nat.mod_0_l by lia.
      replace (NS * SS <=? 0) with false by (symmetry; apply Nat.leb_gt; clear - SS_low NS_low; nia). lia.
    + rewrite (new_run A off a) by assumption. set (z := (a + N.of_nat (length (concat (map fst A))))%N).
      replace (match A with [] => 0%N | _ => z end) with z by (destruct A; [congruence|reflexivity]).
      assert (LA : 0 < length A) by (destruct A; [congruence|cbn; lia]).
      assert (AD : f_next s = if NS * SS <=? s_addr (run_state (length A) off z) then 0 else s_addr (run_state (length A) off z)).
      { rewrite NX. unfold run_state. destruct (off =? 0) eqn:E; cbn [s_addr].
        - destruct (Nat.eq_dec (length A) NS) as [EL|EL].
          + rewrite EL, Nat.mod_same by lia. replace (NS * SS <=? SS * NS) with true; [lia|]. symmetry; apply Nat.leb_le. clear; lia.
          + rewrite Nat.mod_small by lia. replace (NS * SS <=? SS * length A) with false; [reflexivity|]. symmetry; apply Nat.leb_gt. clear - LN EL SS_low. nia.
        - rewrite Nat.mod_small by lia. replace (NS * SS <=? SS * (length A - 1) + off) with false; [reflexivity|].
          symmetry; apply Nat.leb_gt. clear - LN LA O7 SS_low. nia. }
      destruct (NS - length A) as [|k] eqn:EK.
      * cbn [repeat sectors_effect]. unfold run_state in *. destruct (off =? 0); cbn [s_addr] in AD.
        -- exists 0, (SS * length A), z. split; [reflexivity|exact AD].
        -- exists 1, (SS * (length A - 1) + off), z. split; [reflexivity|exact AD].
      * rewrite (sectors_blank SS SS_low SS_high); [|unfold run_state; destruct (off =? 0); cbn; lia|apply run_settled; exact O7| |lia].
        -- unfold run_state in *. destruct (off =? 0); cbn [s_addr s_id s_prev s_start] in *.
           ++ exists 1, (SS * length A), z. split; [reflexivity|exact AD].
           ++ exists 1, (SS * (length A - 1) + off), z. split; [reflexivity|exact AD].
        -- unfold run_state. destruct (off =? 0); cbn [s_found s_addr]; [|discriminate]. intros _.
           rewrite <- (Nat.add_0_r (SS * length A)), mod_in by lia. reflexivity.
  - assert (LA : length A = NS) by (destruct I8 as [K|[K|(_ & _ & K & _)]]; [congruence|exact K|discriminate]).
    set (q := NS - f_start s). assert (Q : 0 < q /\ q < NS) by (unfold q; lia).
    rewrite physical_full by lia. fold q.
    set (Old := firstn q A). set (New := skipn q A).
    assert (EA : A = Old ++ New) by (symmetry; apply firstn_skipn).
    assert (LO : length Old = q) by (unfold Old; rewrite firstn_length; lia).
    assert (LW : length New = f_start s) by (unfold New; rewrite skipn_length; unfold q; lia).
    assert (NN : New <> []) by (intros K; rewrite K in LW; cbn in LW; lia).
    rewrite EA in G, I2, NU. apply Forall_app in G. destruct G as [GO GN]. apply Forall_app in I2. destruct I2 as [EO EN].
    rewrite map_app, concat_app in NU. apply numbered_app in NU. destruct NU as [NO NN'].
    assert (NWn : newest New off).
    { destruct NW as [(O & CL)|(A' & es & E & CL & O & O7')].
      - left. split; [exact O|]. rewrite EA in CL. apply Forall_app in CL. apply CL.
      - right. assert (LA' : length A' = NS - 1) by (rewrite E, app_length in LA; cbn [length] in LA; lia).
        exists (skipn q A'), es. split.
        { unfold New. rewrite E, skipn_app. replace (q - length A') with 0 by lia. reflexivity. }
        split; [|auto]. rewrite <- (firstn_skipn q A') in CL. apply Forall_app in CL. apply CL. }
    rewrite (new_run New off (a + N.of_nat (length (concat (map fst Old))))) by assumption.
    set (z := (a + N.of_nat (length (concat (map fst Old))) + N.of_nat (length (concat (map fst New))))%N).
    assert (Z : z = (a + N.of_nat (length (concat (map fst A))))%N) by (unfold z; rewrite EA, map_app, concat_app, app_length, Nnat.Nat2N.inj_add, N.add_assoc; reflexivity).
    replace (match A with [] => 0%N | _ => (a + N.of_nat (length (concat (map fst A))))%N end) with z by (destruct A; [cbn in LA; lia|exact Z]).
    rewrite LW. destruct Old as [|[eo t] Old'] eqn:EO'; [cbn in LO; lia|].
    inversion_clear GO as [|? ? GO1 GO2]. inversion_clear EO as [|? ? EO1 EO2]. cbn [fst] in EO1.
    pose proof (run_settled (f_start s) off z O7) as ST.
    assert (FP : s_found (run_state (f_start s) off z) < 2 /\ s_prev (run_state (f_start s) off z) = z)
      by (unfold run_state; destruct (off =? 0); cbn [s_found s_prev]; split; reflexivity || lia).
    destruct FP as [FP PP].
    assert (NZ : 0 < length (concat (map fst New))).
    { destruct New as [|[e1 t1] New']; [congruence|]. inversion_clear EN as [|? ? E1 _]. cbn [map concat fst] in *. rewrite app_length.
      destruct e1; [congruence|cbn [length]; lia]. }
    cbn [sectors_effect]. rewrite (sector_old SS SS_low SS_high); auto.
    + rewrite PP. rewrite (sectors_done SS SS_low SS_high); [|reflexivity|exact ST].
      exists 2, (s_addr (run_state (f_start s) off z)), z. split; [reflexivity|].
      rewrite NX, LA. unfold run_state. destruct (off =? 0) eqn:E; cbn [s_addr].
      * replace (f_start s + NS) with (f_start s + 1 * NS) by lia. rewrite Nat.mod_add, Nat.mod_small by lia.
        replace (NS * SS <=? SS * f_start s) with false; [reflexivity|]. symmetry; apply Nat.leb_gt. clear - SL SS_low. nia.
      * replace (f_start s + (NS - 1)) with (f_start s - 1 + 1 * NS) by lia. rewrite Nat.mod_add, Nat.mod_small by lia.
        replace (NS * SS <=? SS * (f_start s - 1) + off) with false; [reflexivity|]. symmetry; apply Nat.leb_gt. clear - SL S0 O7 SS_low. nia.
    + intros e IE. rewrite PP. cbn [map concat fst] in *. apply numbered_app in NO. destruct NO as [NO _].
      pose proof (numbered_in _ _ _ NO IE) as [_ K]. unfold z. rewrite app_length. clear - K NZ. lia.
    + apply GO1.
Qed.

Lemma reboot_spec : forall s m A B off a, inv s m false A B off -> numbered a (concat (map fst A)) ->
  inv (init_state SS NS m) m false A [] off /\
  f_id (init_state SS NS m) = (match A with [] => 0 | _ => a + N.of_nat (length (concat (map fst A))) end)%N.
Proof.
  intros s m A B off a IV NU. destruct (scan_result _ _ _ _ _ _ IV NU) as (f & addr & p & R & NX).
  destruct (inv_next _ _ _ _ _ _ IV) as [NW NX2]. pose proof (newest_off _ _ NW) as O7.
  pose proof IV as [I1 I2 I3 I4 I5 I6 I7 I8 I9]. unfold init_state.
  pose proof (scan_sectors_effect SS SS_low SS_high (physical (f_start s) A) 0 (Scan 0 0 0 0 0) m) as SC.
  rewrite length_physical in SC. rewrite SC; clear SC.
  - rewrite R. cbn [s_addr s_id s_start]. rewrite <- NX.
    assert (US : map (fun x => length (stream (fst x))) (physical (f_start s) A) = f_used s).
    { apply nth_ext with 0 0.
      - rewrite map_length, length_physical. symmetry; apply (h_used_len _ _ _ _ _ _ I1).
      - intros i H. rewrite map_length, length_physical in H. destruct (physical_flash _ _ _ _ _ I1 H) as [_ K]. rewrite K.
        rewrite (nth_indep _ 0 (length (stream (fst none)))) by (rewrite map_length, length_physical; exact H).
        apply (map_nth (fun x : sect => length (stream (fst x)))). }
    rewrite US.
    assert (MO : f_next s mod SS = off).
    { rewrite NX2. destruct (off =? 0) eqn:E.
      - rewrite <- (Nat.add_0_r (SS * _)), mod_in by lia. lia.
      - rewrite mod_in by lia. reflexivity. }
    rewrite MO. split; [|reflexivity].
    split; cbn [f_start f_used f_buf f_remain f_term f_next]; auto; try lia; try discriminate.
    cbn [length]. lia.
  - apply physical_good. apply (h_good _ _ _ _ _ _ I1).
  - intros k K. rewrite Nat.add_0_l. apply (physical_flash _ _ _ _ _ I1 K).
Qed.
End Reboot.
