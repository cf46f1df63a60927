(** Reading back what a sector of the flash log holds. *)
From Coq Require Import List NArith Bool Arith Lia ZifyBool ZifyNat ZifyN.
From Verif Require Import Base RamLog_Model RamLog_Spec RamLog_Proofs FlashLog_Model FlashLog_Spec.
Import ListNotations.

Lemma length_rd : forall m a n, length (rd m a n) = n.
Proof. intros; unfold rd; rewrite map_length, seq_length; reflexivity. Qed.

Lemma nth_rd : forall m a n i d, i < n -> nth i (rd m a n) d = m (a + i).
Proof.
  intros m a n i d H; unfold rd.
  rewrite nth_indep with (d' := m 0) by (rewrite map_length, seq_length; exact H).
  rewrite map_nth, seq_nth by exact H. reflexivity.
Qed.

Lemma rd_ext : forall m m' a n, (forall x, a <= x < a + n -> m x = m' x) -> rd m a n = rd m' a n.
Proof. intros m m' a n H; unfold rd; apply map_ext_in; intros x K; apply in_seq in K; apply H; lia. Qed.

Lemma rd_split : forall m a n k, rd m a (n + k) = rd m a n ++ rd m (a + n) k.
Proof. intros; unfold rd; rewrite seq_app, map_app; reflexivity. Qed.

Lemma rd_program_out : forall m a d b n, b + n <= a \/ a + length d <= b -> rd (program m a d) b n = rd m b n.
Proof.
  intros m a d b n H; apply rd_ext; intros x K; unfold program.
  replace ((a <=? x) && (x <? a + length d)) with false; [reflexivity|]. lia.
Qed.

Lemma rd_erase_out : forall m a k b n, b + n <= a \/ a + k <= b -> rd (erase m a k) b n = rd m b n.
Proof.
  intros m a k b n H; apply rd_ext; intros x K; unfold erase.
  replace ((a <=? x) && (x <? a + k)) with false; [reflexivity|]. lia.
Qed.

Lemma nth_rep : forall {A} (x d : A) n i, i < n -> nth i (repeat x n) d = x.
Proof. intros A x d n; induction n as [|n IH]; intros [|i] L; cbn [repeat nth]; try lia; auto. apply IH; lia. Qed.

Lemma rd_erase_in : forall m a k b n, a <= b -> b + n <= a + k -> rd (erase m a k) b n = repeat 255%N n.
Proof.
  intros m a k b n H K. apply nth_ext with 0%N 0%N; rewrite length_rd; [rewrite repeat_length; reflexivity|].
  intros i L; rewrite nth_rd, nth_rep by exact L.
  unfold erase; replace ((a <=? b + i) && (b + i <? a + k)) with true; [reflexivity|]. lia.
Qed.

Lemma app_inv_len : forall {A} (a b c d : list A), a ++ b = c ++ d -> length a = length c -> a = c /\ b = d.
Proof.
  intros A a; induction a as [|x a IH]; intros b [|y c] d H L; cbn in *; try discriminate; auto.
  injection H as -> H. injection L as L. destruct (IH b c d H L) as [-> ->]; auto.
Qed.

Lemma land_255 : forall b, byte_ok b -> N.land 255 b = b.
Proof.
  intros b H; unfold byte_ok in H. rewrite N.land_comm. change 255%N with (N.ones 8).
  rewrite N.land_ones. apply N.mod_small; exact H.
Qed.

Lemma rd_program_blank : forall m a d, bytes_ok d -> rd m a (length d) = repeat 255%N (length d) ->
  rd (program m a d) a (length d) = d.
Proof.
  intros m a d B H. apply nth_ext with 0%N 0%N; rewrite length_rd; [reflexivity|]. intros i L.
  rewrite nth_rd by exact L. unfold program.
  replace ((a <=? a + i) && (a + i <? a + length d)) with true by lia.
  replace (a + i - a) with i by lia.
  assert (E : m (a + i) = 255%N).
  { rewrite <- (nth_rd m a (length d) i 0%N) by exact L. rewrite H. apply nth_rep; exact L. }
  rewrite E. apply land_255. apply (proj1 (Forall_forall _ _) B). apply nth_In; exact L.
Qed.

Lemma repeat_app_len : forall {A} (x : A) n k, repeat x (n + k) = repeat x n ++ repeat x k.
Proof. intros; apply repeat_app. Qed.

(** Writing behind what a sector holds. *)
Lemma rd_program_append : forall m a (x d : list N) n, bytes_ok d -> length x + length d <= n ->
  rd m a n = x ++ repeat 255%N (n - length x) ->
  rd (program m (a + length x) d) a n = (x ++ d) ++ repeat 255%N (n - length (x ++ d)).
Proof.
  intros m a x d n B L H. rewrite app_length.
  replace n with (length x + (length d + (n - length x - length d))) in H |- * by lia.
  replace (length x + (length d + (n - length x - length d)) - length x) with (length d + (n - length x - length d)) in H by lia.
  replace (length x + (length d + (n - length x - length d)) - (length x + length d)) with (n - length x - length d) by lia.
  set (k := n - length x - length d) in *. rewrite !rd_split in H |- *. rewrite repeat_app_len in H.
  assert (H1 : rd m a (length x) = x /\ rd m (a + length x) (length d) ++ rd m (a + length x + length d) k = repeat 255%N (length d) ++ repeat 255%N k).
  { apply app_inv_len; [exact H|apply length_rd]. }
  destruct H1 as [H1 H2]. apply app_inv_len in H2; [|rewrite length_rd, repeat_length; reflexivity]. destruct H2 as [H2 H3].
  rewrite rd_program_out by lia. rewrite rd_program_blank by assumption. rewrite rd_program_out by lia.
  rewrite H1, H3, app_assoc. reflexivity.
Qed.

Lemma le_value_le16 : forall x, (x < 65536)%N -> le_value (le16 x) = x.
Proof.
  intros x H; unfold le16; cbn [le_value]. rewrite (N.mod_small (x / 256)) by (apply N.div_lt_upper_bound; lia).
  pose proof (N.div_mod x 256). lia.
Qed.
Lemma le_value_le32 : forall x, (x < 2 ^ 32)%N -> le_value (le32 x) = x.
Proof. exact (RamLog_Proofs.le_value_le32 1 0 (Nat.lt_0_succ 0)). Qed.

(** What is written into the log. *)
Definition good (SS : nat) (e : N * list N) : Prop :=
  snd e <> [] /\ 7 + length (snd e) <= SS /\ (fst e + 1 < 2 ^ 32)%N /\ bytes_ok (snd e).

Lemma length_encode : forall e, length (encode e) = 7 + length (snd e).
Proof. intros; unfold encode; cbn; reflexivity. Qed.
Lemma length_term : length term = 7.
Proof. reflexivity. Qed.
Lemma bytes_ok_term : bytes_ok term.
Proof. unfold term, header_bytes, bytes_ok; repeat constructor. Qed.
Lemma stream_cons : forall e es, stream (e :: es) = encode e ++ stream es.
Proof. reflexivity. Qed.
Lemma stream_app : forall a b, stream (a ++ b) = stream a ++ stream b.
Proof. intros; unfold stream; rewrite map_app, concat_app; reflexivity. Qed.
Lemma stream_size : forall es, 7 * length es <= length (stream es).
Proof.
  induction es as [|e es IH]; [cbn; lia|]. rewrite stream_cons, app_length, length_encode; cbn [length]. lia.
Qed.
Lemma stream_nonempty : forall es, es <> [] -> 7 <= length (stream es).
Proof. intros [|e es] H; [congruence|]. rewrite stream_cons, app_length, length_encode; lia. Qed.

Lemma byte_mod : forall x, byte_ok (x mod 256).
Proof. intros x; unfold byte_ok. apply N.mod_lt; lia. Qed.
Lemma bytes_ok_encode : forall e, bytes_ok (snd e) -> bytes_ok (encode e).
Proof.
  intros e H; unfold encode, le16, le32, bytes_ok in *. cbn [app].
  repeat (constructor; [first [apply byte_mod | reflexivity]|]). exact H.
Qed.
Lemma bytes_ok_stream : forall SS es, Forall (good SS) es -> bytes_ok (stream es).
Proof.
  intros SS es H; induction H as [|e es (_ & _ & _ & B) H IH]; [constructor|].
  rewrite stream_cons. apply Forall_app; split; [apply bytes_ok_encode; exact B|exact IH].
Qed.

(** Consecutive numbers. *)
Fixpoint numbered (a : N) (es : entries) : Prop :=
  match es with [] => True | e :: q => fst e = a /\ numbered (a + 1) q end.

Lemma numbered_app : forall x y a, numbered a (x ++ y) <-> numbered a x /\ numbered (a + N.of_nat (length x)) y.
Proof.
  induction x as [|e x IH]; intros y a; cbn [numbered app length].
  - replace (a + N.of_nat 0)%N with a by lia. tauto.
  - rewrite IH. replace (a + N.of_nat (S (length x)))%N with (a + 1 + N.of_nat (length x))%N by lia. tauto.
Qed.
Lemma numbered_snoc : forall a es d, numbered a es -> numbered a (es ++ [((a + N.of_nat (length es))%N, d)]).
Proof. intros; apply numbered_app; split; [assumption|cbn; auto]. Qed.
Lemma numbered_in : forall es a e, numbered a es -> In e es -> (a <= fst e /\ fst e < a + N.of_nat (length es))%N.
Proof.
  induction es as [|x es IH]; intros a e H K; [destruct K|]. destruct H as [H1 H2].
  destruct K as [->|K]; [cbn [length]; lia|]. specialize (IH _ _ H2 K). cbn [length]. lia.
Qed.

Section Scan.
Variable SS NS : nat.
Hypothesis SS_low : 7 < SS.
Hypothesis SS_high : (N.of_nat SS < 2 ^ 15)%N.

Definition sect := (entries * bool)%type.
Definition sdata (x : sect) : list N := stream (fst x) ++ (if snd x then term else []).
Definition sbytes (x : sect) : list N := sdata x ++ repeat 255%N (SS - length (sdata x)).
Definition sgood (x : sect) : Prop := Forall (good SS) (fst x) /\ length (sdata x) <= SS.
(** No further entry goes into this sector. *)
Definition closed (x : sect) : Prop := snd x = true \/ SS - length (sdata x) < 7.

Definition note_all (i : nat) (c : scan) (es : entries) : scan :=
  fold_left (fun c e => note_entry c i (fst e) (7 + length (snd e))) es c.

Lemma scan_one : forall f i c u e rest, good SS e ->
  scan_entries SS (S f) i c u (encode e ++ rest) =
  scan_entries SS f i (note_entry c i (fst e) (7 + length (snd e))) (u + (7 + length (snd e))) rest.
Proof.
  intros f i c u e rest (_ & L & ID & _). cbn [scan_entries].
  assert (LEN : length (encode e ++ rest) = 7 + length (snd e) + length rest) by (rewrite app_length, length_encode; reflexivity).
  replace (length (encode e ++ rest) <? header_size) with false by (unfold header_size; lia).
  assert (MG : nth 0 (encode e ++ rest) 0%N = 0xCB%N) by reflexivity. rewrite MG.
  change (negb (is_entry_start 0xCB) || (N.land 0xCB 0xf =? 0xA)%N) with false. cbv iota.
  assert (W1 : window 1 2 (encode e ++ rest) = le16 (N.of_nat (7 + length (snd e)))) by reflexivity.
  assert (W2 : window 3 4 (encode e ++ rest) = le32 (fst e)) by reflexivity.
  rewrite W1, W2, le_value_le16 by lia. rewrite le_value_le32 by lia.
  unfold TERMINATOR. rewrite N.mod_small by lia. rewrite Nnat.Nat2N.id.
  replace (length (encode e ++ rest) <? 7 + length (snd e)) with false by lia.
  replace (7 + length (snd e) <? header_size) with false by (unfold header_size; lia).
  replace (0x8000 <=? N.of_nat (7 + length (snd e)))%N with false by lia.
  cbn [orb]. cbv iota.
  replace (skipn (7 + length (snd e)) (encode e ++ rest)) with rest; [reflexivity|].
  rewrite <- (length_encode e), skipn_app, skipn_all, Nat.sub_diag. reflexivity.
Qed.

Lemma scan_many : forall es f i c u rest, Forall (good SS) es ->
  scan_entries SS (length es + f) i c u (stream es ++ rest) =
  scan_entries SS f i (note_all i c es) (u + length (stream es)) rest.
Proof.
  induction es as [|e es IH]; intros f i c u rest H; cbn [length].
  - cbn [stream map concat app note_all fold_left length]. rewrite Nat.add_0_r. reflexivity.
  - inversion_clear H as [|? ? G H']. rewrite stream_cons, <- app_assoc. cbn [Nat.add]. rewrite scan_one by exact G.
    rewrite IH by exact H'. cbn [note_all fold_left]. rewrite app_length, length_encode. f_equal. lia.
Qed.

Definition tail_effect (c : scan) (x : sect) : scan :=
  if snd x then skip_sector SS c
  else if SS - length (sdata x) <? 7 then c
  else no_entry SS c (repeat 255%N (SS - length (sdata x))).
Definition adjust (c : scan) : scan :=
  if SS - s_addr c mod SS <? header_size then Scan (s_found c) (next_sector SS (s_addr c)) (s_id c) (s_prev c) (s_start c) else c.
Definition sector_effect (i : nat) (c : scan) (x : sect) : scan := adjust (tail_effect (note_all i c (fst x)) x).

Lemma scan_sector : forall i c x, sgood x ->
  scan_entries SS (S SS) i c 0 (sbytes x) = (tail_effect (note_all i c (fst x)) x, length (stream (fst x))).
Proof.
  intros i c [es t] [G L]. unfold sbytes, tail_effect; cbn [fst snd] in *. unfold sdata in *; cbn [fst snd] in *.
  rewrite <- app_assoc. rewrite app_length in *.
  assert (K : length es <= SS) by (pose proof (stream_size es); lia).
  replace (S SS) with (length es + S (SS - length es)) by lia.
  rewrite scan_many by exact G. cbn [Nat.add]. set (c1 := note_all i c es). set (u := length (stream es)) in *.
  destruct t; cbn [scan_entries].
  - replace (length (term ++ _) <? header_size) with false by (rewrite app_length, length_term; unfold header_size; lia).
    rewrite length_term in *.
    match goal with |- context [term ++ ?z] => set (r := z) end.
    change (nth 0 (term ++ r) 0%N) with 0xCB%N. change (window 1 2 (term ++ r)) with (le16 0x8007).
    change (negb (is_entry_start 0xCB) || (N.land 0xCB 0xf =? 0xA)%N) with false. cbv iota.
    change (le_value (le16 0x8007)) with 0x8007%N. change (N.to_nat (0x8007 mod TERMINATOR)) with 7.
    replace (length (term ++ r) <? 7) with false by (rewrite app_length, length_term; lia).
    change (7 <? header_size) with false. cbn [orb]. cbv iota. reflexivity.
  - cbn [app length] in *. rewrite Nat.add_0_r in *. rewrite repeat_length.
    unfold header_size. destruct (SS - u <? 7) eqn:E; [reflexivity|].
    assert (M : nth 0 (repeat 255%N (SS - u)) 0%N = 255%N) by (apply nth_rep; lia).
    rewrite M. change (negb (is_entry_start 255) || (N.land 255 0xf =? 0xA)%N) with true. reflexivity.
Qed.

Fixpoint sectors_effect (i : nat) (c : scan) (l : list sect) : scan :=
  match l with [] => c | x :: q => sectors_effect (i + 1) (sector_effect i c x) q end.

Lemma scan_sectors_effect : forall l i c m, Forall sgood l ->
  (forall k, k < length l -> rd m (SS * (i + k)) SS = sbytes (nth k l ([], false))) ->
  scan_sectors SS (length l) i c m = (sectors_effect i c l, map (fun x => length (stream (fst x))) l).
Proof.
  induction l as [|x l IH]; intros i c m G H; cbn [length scan_sectors sectors_effect map]; [reflexivity|].
  inversion_clear G as [|? ? G1 G2]. pose proof (H 0 ltac:(cbn; lia)) as H0. rewrite Nat.add_0_r in H0. cbn [nth] in H0.
  rewrite H0, scan_sector by exact G1.
  change (if SS - s_addr (tail_effect (note_all i c (fst x)) x) mod SS <? header_size then _ else _) with (sector_effect i c x).
  rewrite IH; [reflexivity|exact G2|]. intros k K. specialize (H (S k) ltac:(cbn; lia)). cbn [nth] in H. rewrite <- H.
  f_equal. f_equal. lia.
Qed.

(** The four ways a sector can go. *)
Lemma note_new : forall i es c a, s_found c = 0 -> numbered a es -> (s_prev c <= a)%N -> Forall (good SS) es -> es <> [] ->
  note_all i c es = Scan 0 (s_addr c + length (stream es)) (a + N.of_nat (length es)) (a + N.of_nat (length es)) (s_start c).
Proof.
  clear SS_low SS_high NS.
  intros i es; induction es as [|e es IH]; intros c a F N P G NE; [congruence|]. clear NE.
  cbn [note_all fold_left]. destruct N as [N1 N2]. inversion_clear G as [|? ? (G1 & G2 & G3 & G4) G'].
  assert (E : note_entry c i (fst e) (7 + length (snd e)) = Scan 0 (s_addr c + (7 + length (snd e))) (a + 1) (a + 1) (s_start c)).
  { unfold note_entry. rewrite F. cbn [Nat.ltb Nat.leb]. rewrite N1 in *. rewrite N.mod_small by lia.
    replace (a + 1 <? s_prev c)%N with false by lia. reflexivity. }
  rewrite E. fold (note_all i (Scan 0 (s_addr c + (7 + length (snd e))) (a + 1) (a + 1) (s_start c)) es).
  destruct es as [|e2 es].
  - cbn [note_all fold_left stream map concat length app]. rewrite app_length, length_encode. cbn [length]. f_equal; lia.
  - rewrite IH with (a := (a + 1)%N); cbn [s_found s_prev s_addr s_start]; auto; [|lia|congruence].
    rewrite stream_cons with (e := e), app_length, length_encode. f_equal; cbn [length]; lia.
Qed.

Lemma note_done : forall i es c, s_found c = 2 -> note_all i c es = c.
Proof.
  clear SS_low SS_high NS.
  intros i es; induction es as [|e es IH]; intros c F; [reflexivity|]. cbn [note_all fold_left].
  replace (note_entry c i (fst e) (7 + length (snd e))) with c by (unfold note_entry; rewrite F; reflexivity).
  apply IH; exact F.
Qed.

Definition settled (c : scan) : Prop := SS - s_addr c mod SS >= 7.

Lemma adjust_settled : forall c, settled c -> adjust c = c.
Proof. intros c H; unfold adjust, settled, header_size in *. replace (_ <? 7) with false by lia. reflexivity. Qed.

Lemma sector_done : forall i c x, s_found c = 2 -> settled c -> sector_effect i c x = c.
Proof.
  intros i c x F S; unfold sector_effect. rewrite note_done by exact F.
  assert (T : tail_effect c x = c); [|rewrite T; apply adjust_settled; exact S].
  unfold tail_effect, skip_sector, no_entry. rewrite F. cbn [Nat.eqb]. destruct (snd x), (SS - length (sdata x) <? 7); reflexivity.
Qed.

Lemma sectors_done : forall l i c, s_found c = 2 -> settled c -> sectors_effect i c l = c.
Proof.
  induction l as [|x l IH]; intros i c F S; [reflexivity|]. cbn [sectors_effect]. rewrite sector_done by assumption. apply IH; assumption.
Qed.

Lemma sector_old : forall i c es t, (s_found c < 2) -> settled c -> es <> [] ->
  (forall e, In e es -> fst e + 1 < s_prev c)%N -> Forall (good SS) es ->
  sector_effect i c (es, t) = Scan 2 (s_addr c) (s_prev c) (s_prev c) i.
Proof.
  intros i c es t F S NE O G. unfold sector_effect.
  assert (N : note_all i c es = Scan 2 (s_addr c) (s_prev c) (s_prev c) i).
  { destruct es as [|e es]; [congruence|]. cbn [note_all fold_left].
    replace (note_entry c i (fst e) (7 + length (snd e))) with (Scan 2 (s_addr c) (s_prev c) (s_prev c) i).
    - apply note_done; reflexivity.
    - unfold note_entry. replace (s_found c <? 2) with true by lia. inversion_clear G as [|? ? (_ & _ & G3 & _) _].
      rewrite N.mod_small by lia. specialize (O e (or_introl eq_refl)). replace (fst e + 1 <? s_prev c)%N with true by lia. reflexivity. }
  cbn [fst]. rewrite N.
  assert (T : tail_effect (Scan 2 (s_addr c) (s_prev c) (s_prev c) i) (es, t) = Scan 2 (s_addr c) (s_prev c) (s_prev c) i).
  { unfold tail_effect, skip_sector, no_entry. cbn [s_found Nat.eqb snd]. destruct t; [reflexivity|]; destruct (SS - length (sdata (es, false)) <? 7); reflexivity. }
  rewrite T. apply adjust_settled. exact S.
Qed.

Lemma sector_blank : forall i c, (s_found c < 2) -> settled c -> (s_found c = 0 -> s_addr c mod SS = 0) ->
  sector_effect i c ([], false) = Scan 1 (s_addr c) (s_id c) (s_prev c) (s_start c).
Proof.
  intros i c F S A. unfold sector_effect, tail_effect. cbn [fst snd note_all fold_left]. unfold sdata; cbn [fst snd stream map concat app length].
  rewrite Nat.sub_0_r. replace (SS <? 7) with false by lia.
  unfold no_entry. destruct c as [fo ad id pr st]; cbn [s_found s_addr s_id s_prev s_start] in *.
  destruct fo as [|[|fo]]; [| |lia]; cbn [Nat.eqb].
  - rewrite (A eq_refl). cbn [Nat.eqb]. apply adjust_settled. exact S.
  - apply adjust_settled. exact S.
Qed.

Lemma sectors_blank : forall k i c, (s_found c < 2) -> settled c -> (s_found c = 0 -> s_addr c mod SS = 0) -> 0 < k ->
  sectors_effect i c (repeat ([], false) k) = Scan 1 (s_addr c) (s_id c) (s_prev c) (s_start c).
Proof.
  induction k as [|k IH]; intros i c F S A P; [lia|]. cbn [repeat sectors_effect]. rewrite sector_blank by assumption.
  destruct k as [|k]; [reflexivity|]. rewrite IH; [reflexivity| | | |]; cbn [s_found s_addr]; try lia; auto.
Qed.

Lemma mod_in : forall j r, r < SS -> (SS * j + r) mod SS = r.
Proof. intros j r H. rewrite Nat.add_comm, Nat.mul_comm, Nat.mod_add by lia. apply Nat.mod_small; exact H. Qed.
Lemma next_in : forall j r, r < SS -> next_sector SS (SS * j + r) = SS * (j + 1).
Proof. intros j r H. unfold next_sector. rewrite mod_in by exact H. lia. Qed.

Lemma sector_new_closed : forall i c es t a, s_found c = 0 -> s_addr c = SS * i -> numbered a es -> (s_prev c <= a)%N -> sgood (es, t) -> es <> [] ->
  closed (es, t) ->
  sector_effect i c (es, t) = Scan 0 (SS * (i + 1)) (a + N.of_nat (length es)) (a + N.of_nat (length es)) (s_start c).
Proof.
  intros i c es t a F A N P [G L] NE C. unfold sector_effect. cbn [fst]. cbn [fst] in G. rewrite note_new with (a := a) by assumption.
  rewrite A. unfold closed, sdata, tail_effect, sdata in *; cbn [fst snd] in *. rewrite app_length in *. set (u := length (stream es)) in *.
  set (z := (a + N.of_nat (length es))%N).
  destruct t.
  - rewrite length_term in *. unfold skip_sector; cbn [s_found s_addr s_id s_prev s_start Nat.eqb]. rewrite next_in by lia.
    apply adjust_settled. unfold settled; cbn [s_addr]. rewrite <- (Nat.add_0_r (SS * (i + 1))), mod_in by lia. lia.
  - cbn [length] in *. destruct C as [C|C]; [discriminate|]. replace (SS - (u + 0) <? 7) with true by lia.
    unfold adjust; cbn [s_addr s_found s_id s_prev s_start]. destruct (Nat.eq_dec u SS) as [E|E].
    + rewrite E. replace (SS * i + SS) with (SS * (i + 1) + 0) by lia. rewrite mod_in by lia. unfold header_size.
      replace (SS - 0 <? 7) with false by lia. f_equal; lia.
    + rewrite mod_in by lia. unfold header_size. replace (SS - u <? 7) with true by lia. rewrite next_in by lia. reflexivity.
Qed.

Lemma forallb_repeat : forall {A} (f : A -> bool) x n, f x = true -> forallb f (repeat x n) = true.
Proof. clear. intros A f x n H; induction n; cbn; [reflexivity|]. rewrite H; assumption. Qed.

Lemma sector_new_open : forall i c es a, s_found c = 0 -> s_addr c = SS * i -> numbered a es -> (s_prev c <= a)%N -> sgood (es, false) -> es <> [] ->
  SS - length (stream es) >= 7 ->
  sector_effect i c (es, false) = Scan 1 (SS * i + length (stream es)) (a + N.of_nat (length es)) (a + N.of_nat (length es)) (s_start c).
Proof.
  intros i c es a F A N P [G L] NE C. unfold sector_effect. cbn [fst]. cbn [fst] in G. rewrite note_new with (a := a) by assumption.
  rewrite A. unfold sdata, tail_effect, sdata in *; cbn [fst snd] in *. rewrite app_nil_r in *. set (u := length (stream es)) in *.
  pose proof (stream_nonempty es NE). fold u in H.
  replace (SS - u <? 7) with false by lia. unfold no_entry; cbn [s_found s_addr s_id s_prev s_start Nat.eqb].
  rewrite mod_in by lia. replace (u =? 0) with false by lia. rewrite forallb_repeat by reflexivity. apply adjust_settled.
  unfold settled; cbn [s_addr]. rewrite mod_in by lia. exact C.
Qed.

(** Several sectors of the newest run. *)
Lemma sectors_new_closed : forall (l : list sect) i c a rest, s_found c = 0 -> s_addr c = SS * i -> numbered a (concat (map fst l)) -> (s_prev c <= a)%N ->
  Forall sgood l -> Forall closed l -> Forall (fun x => fst x <> []) l -> l <> [] ->
  let z := (a + N.of_nat (length (concat (map fst l))))%N in
  sectors_effect i c (l ++ rest) = sectors_effect (i + length l) (Scan 0 (SS * (i + length l)) z z (s_start c)) rest.
Proof.
  induction l as [|[es t] l IH]; intros i c a rest F A N P G C E NE z; [congruence|]. clear NE.
  inversion_clear G as [|? ? G1 G2]. inversion_clear C as [|? ? C1 C2]. inversion_clear E as [|? ? E1 E2]. cbn [fst] in E1.
  cbn [map concat fst] in *. apply numbered_app in N. destruct N as [N1 N2]. cbn [app sectors_effect].
  rewrite sector_new_closed with (a := a) by assumption.
  assert (D : l = [] \/ l <> []) by (destruct l; [left|right]; congruence). destruct D as [->|D].
  - cbn [app length map concat] in *. subst z. rewrite app_nil_r. reflexivity.
  - rewrite IH with (a := (a + N.of_nat (length es))%N); cbn [s_found s_addr s_prev s_start]; try assumption; try lia; auto.
    cbn [length]. subst z. rewrite app_length.
    replace (i + 1 + length l) with (i + S (length l)) by lia.
    replace (a + N.of_nat (length es) + N.of_nat (length (concat (map fst l))))%N with (a + N.of_nat (length es + length (concat (map fst l))))%N by lia.
    reflexivity.
Qed.
End Scan.
