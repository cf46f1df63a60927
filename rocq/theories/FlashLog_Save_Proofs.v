(** The ring of sectors of the flash log, and what saving the buffer does to it. *)
From Coq Require Import List NArith Bool Arith Lia ZifyBool ZifyNat ZifyN.
From Verif Require Import Base RamLog_Model RamLog_Spec FlashLog_Model FlashLog_Spec FlashLog_Scan_Proofs.
Import ListNotations.

Section Save.
Variable SS NS : nat.
Hypothesis SS_low : 7 < SS.
Hypothesis SS_high : (N.of_nat SS < 2 ^ 15)%N.
Hypothesis NS_low : 2 <= NS.

Notation sbytes := (sbytes SS).
Notation sgood := (sgood SS).
Notation closed := (closed SS).
Definition none : sect := ([], false).

Lemma mod_pos : forall a b, a < NS -> b <= NS -> (a + b) mod NS = if a + b <? NS then a + b else a + b - NS.
Proof.
  clear SS SS_low SS_high.
  intros a b A B. destruct (a + b <? NS) eqn:E; [apply Nat.mod_small; lia|].
  replace (a + b) with (a + b - NS + 1 * NS) at 1 by lia. rewrite Nat.mod_add by lia. apply Nat.mod_small. lia.
Qed.
Lemma pos_lt : forall a, a mod NS < NS.
Proof. clear SS SS_low SS_high. intros; apply Nat.mod_upper_bound; lia. Qed.
Lemma pos_inj : forall s j k, s < NS -> j < NS -> k < NS -> (s + j) mod NS = (s + k) mod NS -> j = k.
Proof.
  clear SS SS_low SS_high.
  intros s j k S J K. rewrite !mod_pos by lia. destruct (s + j <? NS) eqn:E1, (s + k <? NS) eqn:E2; lia.
Qed.
Lemma apart : forall i j, i <> j -> SS * i + SS <= SS * j \/ SS * j + SS <= SS * i.
Proof. clear. intros i j H. destruct (Nat.lt_total i j) as [L|[L|L]]; [left|lia|right]; nia. Qed.

(** The sectors [A], oldest first, beginning at sector [start]. *)
Record holds (m : flash) (start : nat) (used : list nat) (A : list sect) : Prop := Holds {
  h_start : start < NS;
  h_len : length A <= NS;
  h_flash : forall k, k < NS -> rd m (SS * ((start + k) mod NS)) SS = sbytes (nth k A none);
  h_used_len : length used = NS;
  h_used : forall k, k < NS -> nth ((start + k) mod NS) used 0 = length (stream (fst (nth k A none)));
  h_good : Forall sgood A
}.

Lemma sgood_none : sgood none.
Proof. split; [constructor|cbn; lia]. Qed.

Lemma nth_snoc_none : forall A k, nth k (A ++ [none]) none = nth k A none.
Proof.
  intros A k. destruct (Nat.lt_ge_cases k (length A)); [apply app_nth1; assumption|].
  rewrite app_nth2 by assumption. rewrite (nth_overflow A) by assumption. destruct (k - length A) as [|[|?]]; reflexivity.
Qed.

Lemma holds_none : forall m start used A, holds m start used A -> length A < NS -> holds m start used (A ++ [none]).
Proof.
  intros m start used A [H1 H2 H3 H4 H5 H6] L. split; auto.
  - rewrite app_length; cbn [length]; lia.
  - intros k K. rewrite nth_snoc_none. auto.
  - intros k K. rewrite nth_snoc_none. auto.
  - apply Forall_app; split; [assumption|]. constructor; [apply sgood_none|constructor].
Qed.

Lemma nth_last : forall (A : list sect) x, nth (length A) (A ++ [x]) none = x.
Proof. clear. intros; rewrite app_nth2, Nat.sub_diag by lia; reflexivity. Qed.
Lemma nth_not_last : forall (A : list sect) x y k, k <> length A -> nth k (A ++ [x]) none = nth k (A ++ [y]) none.
Proof.
  intros A x y k H. destruct (Nat.lt_ge_cases k (length A)); [rewrite !app_nth1 by assumption; reflexivity|].
  rewrite !app_nth2 by assumption. destruct (k - length A) as [|[|?]] eqn:E; [lia|reflexivity|reflexivity].
Qed.

Lemma sdata_false : forall es, sdata (es, false) = stream es.
Proof. intros; unfold sdata; cbn [fst snd]; apply app_nil_r. Qed.

(** Writing behind the entries of the last sector. *)
Lemma holds_append : forall m start used A es es' (t : bool) c,
  holds m start used (A ++ [(es, false)]) -> c = (start + length A) mod NS -> sgood (es ++ es', t) ->
  let d := stream es' ++ (if t then term else []) in
  holds (program m (SS * c + length (stream es)) d) start (upd used c (length (stream (es ++ es')))) (A ++ [(es ++ es', t)]).
Proof.
  intros m start used A es es' t c [H1 H2 H3 H4 H5 H6] C G d.
  rewrite app_length in H2; cbn [length] in H2.
  assert (B : bytes_ok d).
  { apply Forall_app; split; [|destruct t; [apply bytes_ok_term|constructor]].
    destruct G as [G _]; cbn [fst] in G. apply Forall_app in G. apply (bytes_ok_stream SS); apply G. }
  assert (D : sdata (es ++ es', t) = stream es ++ d) by (unfold sdata, d; cbn [fst snd]; rewrite stream_app, app_assoc; reflexivity).
  assert (L : length (stream es) + length d <= SS) by (destruct G as [_ G]; rewrite D, app_length in G; exact G).
  split; auto.
  - rewrite app_length; cbn [length]; lia.
  - intros k K. destruct (Nat.eq_dec k (length A)) as [->|E].
    + rewrite nth_last, <- C. specialize (H3 (length A) ltac:(lia)). rewrite nth_last, <- C in H3.
      unfold FlashLog_Scan_Proofs.sbytes in H3 |- *. rewrite sdata_false in H3. rewrite D. apply rd_program_append; assumption.
    + rewrite (nth_not_last A _ (es, false)) by exact E. rewrite rd_program_out; [apply H3; exact K|].
      assert (P : (start + k) mod NS <> c).
      { intros P; apply E. apply (pos_inj start); try assumption; try congruence; lia. }
      destruct (apart _ _ P); lia.
  - rewrite length_upd. exact H4.
  - intros k K. assert (CL : c < NS) by (rewrite C; apply pos_lt). destruct (Nat.eq_dec k (length A)) as [->|E].
    + rewrite nth_last, <- C. cbn [fst]. rewrite nth_upd_eq by (rewrite H4; exact CL). reflexivity.
    + rewrite (nth_not_last A _ (es, false)) by exact E. rewrite nth_upd_neq; [apply H5; exact K|].
      intros P; apply E. apply (pos_inj start); try assumption; try congruence; lia.
  - apply Forall_app; split; [apply Forall_app in H6; apply H6|]. constructor; [exact G|constructor].
Qed.

Lemma nth_tl : forall {X} (l : list X) k d, nth k (tl l) d = nth (S k) l d.
Proof. clear. intros X [|x l] k d; [destruct k; reflexivity|reflexivity]. Qed.

(** Erasing the next sector. *)
Lemma holds_erase : forall m start used A c, holds m start used A -> Forall (fun x => fst x <> []) A -> c = (start + length A) mod NS ->
  let used1 := upd used c 0 in
  let next := (start + 1) mod NS in
  let start1 := if (start =? c) && negb (nth next used1 0 =? 0) then next else start in
  let m1 := erase m (SS * c) SS in
  (length A < NS /\ holds m1 start used1 A /\ start1 = start) \/
  (length A = NS /\ holds m1 next used1 (tl A) /\ start1 = next /\ c = (next + length (tl A)) mod NS).
Proof.
  intros m start used A c [H1 H2 H3 H4 H5 H6] NE C used1 next start1 m1.
  assert (CL : c < NS) by (rewrite C; apply pos_lt).
  destruct (Nat.lt_ge_cases (length A) NS) as [L|L]; [left|right].
  - split; [exact L|]. split.
    + split; auto.
      * intros k K. destruct (Nat.eq_dec k (length A)) as [->|E].
        -- rewrite <- C. unfold m1. rewrite rd_erase_in by lia. rewrite nth_overflow by lia.
           unfold FlashLog_Scan_Proofs.sbytes, sdata, none; cbn [fst snd stream map concat app length]. rewrite Nat.sub_0_r. reflexivity.
        -- unfold m1. rewrite rd_erase_out; [apply H3; exact K|].
           assert (P : (start + k) mod NS <> c) by (intros P; apply E; apply (pos_inj start); try assumption; congruence || lia).
           destruct (apart _ _ P); lia.
      * unfold used1; rewrite length_upd; exact H4.
      * intros k K. unfold used1. destruct (Nat.eq_dec k (length A)) as [->|E].
        -- rewrite <- C, nth_upd_eq by (rewrite H4; exact CL). rewrite nth_overflow by lia. reflexivity.
        -- rewrite nth_upd_neq; [apply H5; exact K|]. intros P; apply E; apply (pos_inj start); try assumption; congruence || lia.
    + unfold start1. destruct (start =? c) eqn:E; [|reflexivity]. cbn [andb].
      assert (A0 : length A = 0).
      { symmetry. apply (pos_inj start); try assumption; try lia. rewrite Nat.add_0_r, (Nat.mod_small start) by exact H1.
        transitivity c; [lia|exact C]. }
      replace (nth next used1 0) with 0; [reflexivity|]. unfold used1, next.
      assert (P : (start + 1) mod NS <> c).
      { intros P. assert (Q : 1 = length A); [|lia]. apply (pos_inj start); try assumption; try congruence; lia. }
      rewrite nth_upd_neq by (apply not_eq_sym; exact P). rewrite H5 by lia. rewrite nth_overflow by lia. reflexivity.
  - assert (LA : length A = NS) by lia. clear L. split; [exact LA|].
    assert (CS : c = start).
    { rewrite C, LA, mod_pos by lia. destruct (start + NS <? NS) eqn:E; lia. }
    assert (NX : next < NS) by apply pos_lt.
    assert (LT : length (tl A) = NS - 1) by (destruct A; cbn [tl length] in *; lia).
    assert (PK : forall k, k < NS -> (next + k) mod NS = (start + (k + 1)) mod NS).
    { intros k K. unfold next. rewrite Nat.add_mod_idemp_l by lia. f_equal. lia. }
    assert (CN : c = (next + length (tl A)) mod NS).
    { rewrite LT, PK by lia. replace (NS - 1 + 1) with NS by lia. rewrite mod_pos by lia. destruct (start + NS <? NS) eqn:E; lia. }
    assert (OT : forall k, k < NS - 1 -> (next + k) mod NS <> c).
    { intros k K P. assert (Q : k = length (tl A)); [|lia]. apply (pos_inj next); try assumption; try congruence; lia. }
    assert (HM : holds m1 next used1 (tl A)).
    { split; auto.
      - lia.
      - intros k K. destruct (Nat.eq_dec k (NS - 1)) as [E|E].
        + rewrite E, <- LT, <- CN. unfold m1. rewrite rd_erase_in by lia. rewrite nth_overflow by lia.
          unfold FlashLog_Scan_Proofs.sbytes, sdata, none; cbn [fst snd stream map concat app length]. rewrite Nat.sub_0_r. reflexivity.
        + unfold m1. rewrite rd_erase_out by (destruct (apart _ _ (OT k ltac:(lia))); lia).
          rewrite PK by exact K. rewrite H3 by lia. rewrite nth_tl. replace (k + 1) with (S k) by lia. reflexivity.
      - unfold used1; rewrite length_upd; exact H4.
      - intros k K. unfold used1. destruct (Nat.eq_dec k (NS - 1)) as [E|E].
        + rewrite E, <- LT, <- CN, nth_upd_eq by (rewrite H4; exact CL). rewrite nth_overflow by lia. reflexivity.
        + rewrite nth_upd_neq by (apply not_eq_sym, OT; lia). rewrite PK by exact K. rewrite H5 by lia. rewrite nth_tl. replace (k + 1) with (S k) by lia. reflexivity.
      - destruct A; [assumption|]. inversion_clear H6; assumption. }
    split; [exact HM|]. split; [|exact CN].
    unfold start1. rewrite CS, Nat.eqb_refl. cbn [andb].
    replace (nth next used1 0 =? 0) with false; [reflexivity|]. symmetry. apply Nat.eqb_neq.
    pose proof (h_used _ _ _ _ HM 0 ltac:(lia)) as U. rewrite Nat.add_0_r, (Nat.mod_small next) in U by exact NX. rewrite U, nth_tl.
    destruct A as [|x [|y A]]; cbn [length] in LA; try lia. cbn [nth].
    inversion_clear NE as [|? ? _ NE']. inversion_clear NE' as [|? ? NY _]. exact (fun Z => Nat.nle_succ_0 _ (eq_ind _ (fun n => 7 <= n) (stream_nonempty _ NY) _ Z)).
Qed.

(** The state of a log. [d]: a write failed since the last flush. *)
Record inv (s : flog) (m : flash) (d : bool) (A : list sect) (B : entries) (off : nat) : Prop := Inv {
  i_holds : holds m (f_start s) (f_used s) A;
  i_ne : Forall (fun x => fst x <> []) A;
  i_next : (off = 0 /\ Forall closed A /\ f_next s = SS * ((f_start s + length A) mod NS)) \/
           (exists A' es, A = A' ++ [(es, false)] /\ Forall closed A' /\ off = length (stream es) /\ off + 7 <= SS /\
              f_next s = SS * ((f_start s + length A') mod NS) + off);
  i_buf : f_buf s = stream B ++ (if f_term s then term else []);
  i_remain : off + length (f_buf s) + f_remain s = SS;
  i_empty : f_buf s = [] -> 7 <= f_remain s;
  i_fresh : off = 0 -> f_term s = true -> B <> [];
  i_shape : f_start s = 0 \/ length A = NS \/ (length A = NS - 1 /\ off = 0 /\ d = true /\ B <> []);
  i_good : Forall (good SS) B
}.

Definition after (d : bool) (r : status) : bool := match r with Ok => false | WriteFailed => true | _ => d end.

Lemma div_in : forall j r, r < SS -> (SS * j + r) / SS = j.
Proof. clear NS NS_low SS_high. intros j r H. rewrite Nat.add_comm, Nat.mul_comm, Nat.div_add by lia. rewrite Nat.div_small by exact H. reflexivity. Qed.

Lemma concat_tl : forall A : list sect, A <> [] -> concat (map fst A) = fst (nth 0 A none) ++ concat (map fst (tl A)).
Proof. intros [|x A] H; [congruence|reflexivity]. Qed.

Lemma save_write : forall s m A es B c off a3,
  holds m (f_start s) (f_used s) (A ++ [(es, false)]) -> Forall (fun x => fst x <> []) A -> Forall closed A ->
  c = (f_start s + length A) mod NS -> off = length (stream es) ->
  f_buf s = stream B ++ (if f_term s then term else []) -> f_buf s <> [] -> off + length (f_buf s) + f_remain s = SS ->
  es ++ B <> [] -> Forall (good SS) B ->
  (f_start s = 0 \/ length A = NS - 1) ->
  a3 = next_address SS NS (SS * c + off + length (f_buf s)) (f_remain s) (f_term s) ->
  exists off', inv (FLog [] (SS - a3 mod SS) false (f_id s)
      (upd (f_used s) c (if f_term s then off + length (f_buf s) - header_size else off + length (f_buf s))) a3 (f_start s))
    (program m (SS * c + off) (f_buf s)) false (A ++ [(es ++ B, f_term s)]) [] off' /\
    (f_term s = true \/ f_remain s < 7 -> off' = 0).
Proof.
  intros s m A es B c off a3 H NE CL C O BF BN RM EB G SH A3. unfold next_address in A3. cbv zeta in A3.
  remember (SS * c + off + length (f_buf s)) as a1 eqn:A1.
  remember (if negb (a1 mod SS =? 0) && ((f_remain s <? header_size) || f_term s) then a1 - a1 mod SS + SS else a1) as a2 eqn:A2.
  assert (GG : sgood (es ++ B, f_term s)).
  { split; cbn [fst].
    - apply Forall_app; split; [|exact G]. pose proof (h_good _ _ _ _ H) as K. apply Forall_app in K. destruct K as [_ K].
      inversion_clear K as [|? ? K1 _]. apply K1.
    - unfold sdata; cbn [fst snd]. rewrite stream_app, <- app_assoc, <- BF, app_length. lia. }
  pose proof (holds_append _ _ _ _ _ B (f_term s) c H C GG) as W. cbv zeta in W. rewrite <- BF, <- O in W.
  assert (U : (if f_term s then off + length (f_buf s) - header_size else off + length (f_buf s)) = length (stream (es ++ B))).
  { rewrite stream_app, BF, !app_length, <- O. destruct (f_term s); rewrite ?length_term; cbn [length]; unfold header_size; lia. }
  assert (CN : c < NS) by (rewrite C; apply pos_lt).
  assert (LA : length A < NS) by (pose proof (h_len _ _ _ _ H) as K; rewrite app_length in K; cbn [length] in K; lia).
  assert (NB : length (f_buf s) <> 0) by (destruct (f_buf s); cbn; congruence).
  assert (NE2 : Forall (fun x : sect => fst x <> []) (A ++ [(es ++ B, f_term s)])) by (apply Forall_app; split; [exact NE|constructor; [exact EB|constructor]]).
  assert (SH2 : f_start s = 0 \/ length (A ++ [(es ++ B, f_term s)]) = NS \/
     (length (A ++ [(es ++ B, f_term s)]) = NS - 1 /\ 0 = 0 /\ false = true /\ ([] : entries) <> [])) by (rewrite app_length; cbn [length]; lia).
  assert (NX : (f_start s + length (A ++ [(es ++ B, f_term s)])) mod NS = if c + 1 =? NS then 0 else c + 1).
  { pose proof (h_start _ _ _ _ H). rewrite app_length; cbn [length]. rewrite C, !mod_pos by lia.
    destruct (f_start s + (length A + 1) <? NS) eqn:E1, (f_start s + length A <? NS) eqn:E2, (_ + 1 =? NS) eqn:E3; lia. }
  assert (FIN : forall sd, sd = (es ++ B, f_term s) -> (closed sd -> a3 = SS * ((f_start s + length (A ++ [(es ++ B, f_term s)])) mod NS)) ->
     (~ closed sd -> a3 = SS * c + (off + length (f_buf s)) /\ f_term s = false /\ off + length (f_buf s) + 7 <= SS) -> (closed sd \/ ~ closed sd) ->
     exists off', inv (FLog [] (SS - a3 mod SS) false (f_id s)
      (upd (f_used s) c (if f_term s then off + length (f_buf s) - header_size else off + length (f_buf s))) a3 (f_start s))
      (program m (SS * c + off) (f_buf s)) false (A ++ [(es ++ B, f_term s)]) [] off' /\
      (f_term s = true \/ f_remain s < 7 -> off' = 0)).
  { intros sd -> Y N [D|D].
    - specialize (Y D). exists 0. split; [|reflexivity]. split; cbn [f_start f_used f_next f_buf f_remain f_term].
      + rewrite U. exact W.
      + exact NE2.
      + left. split; [reflexivity|]. split; [apply Forall_app; split; [exact CL|constructor; [exact D|constructor]]|exact Y].
      + reflexivity.
      + rewrite Y. rewrite <- (Nat.add_0_r (SS * _)), mod_in by lia. cbn [length]. lia.
      + rewrite Y. rewrite <- (Nat.add_0_r (SS * _)), mod_in by lia. lia.
      + discriminate.
      + exact SH2.
      + constructor.
    - specialize (N D). destruct N as (N1 & N2 & N3). exists (off + length (f_buf s)). split; [|intros [K|K]; [congruence|lia]]. split; cbn [f_start f_used f_next f_buf f_remain f_term].
      + rewrite U. exact W.
      + exact NE2.
      + right. exists A, (es ++ B). rewrite N2. split; [reflexivity|]. split; [exact CL|]. split.
        { rewrite stream_app, app_length, <- O, BF, N2, app_nil_r. reflexivity. }
        split; [exact N3|]. rewrite <- C. exact N1.
      + reflexivity.
      + rewrite N1, mod_in by lia. cbn [length]. lia.
      + rewrite N1, mod_in by lia. lia.
      + discriminate.
      + rewrite app_length in *; cbn [length] in *; lia.
      + constructor. }
  apply (FIN _ eq_refl); clear FIN W U.
  - intros D. rewrite NX. assert (E2 : a2 = SS * (c + 1)).
    { rewrite A2. replace a1 with (SS * c + (off + length (f_buf s))) by lia.
      destruct (Nat.eq_dec (off + length (f_buf s)) SS) as [E|E].
      - rewrite E. replace (SS * c + SS) with (SS * (c + 1) + 0) by lia. rewrite mod_in by lia. cbn [Nat.eqb negb andb]. lia.
      - rewrite mod_in by lia. replace (off + length (f_buf s) =? 0) with false by lia. cbn [negb andb].
        replace ((f_remain s <? header_size) || f_term s) with true; [lia|].
        destruct D as [D|D]; cbn [snd] in D; [rewrite D, orb_true_r; reflexivity|].
        unfold sdata in D; cbn [fst snd] in D. rewrite stream_app, <- app_assoc, <- BF, app_length, <- O in D.
        unfold header_size. lia. }
    rewrite A3, E2. destruct (c + 1 =? NS) eqn:E.
    + replace (NS * SS <=? SS * (c + 1)) with true by nia. lia.
    + replace (NS * SS <=? SS * (c + 1)) with false by nia. reflexivity.
  - intros D. assert (T : f_term s = false) by (destruct (f_term s) eqn:T; [exfalso; apply D; left; reflexivity|reflexivity]).
    assert (R : off + length (f_buf s) + 7 <= SS).
    { apply Nat.nlt_ge. intros K. apply D. right. unfold sdata; cbn [fst snd]. rewrite stream_app, <- app_assoc, <- BF, app_length, <- O. lia. }
    split; [|split; [exact T|exact R]]. rewrite A3, A2. replace a1 with (SS * c + (off + length (f_buf s))) by lia.
    rewrite mod_in by lia. rewrite T. unfold header_size. replace (f_remain s <? 7) with false by lia.
    rewrite andb_false_r. replace (NS * SS <=? SS * c + (off + length (f_buf s))) with false by nia. reflexivity.
  - unfold FlashLog_Scan_Proofs.closed. cbn [snd]. destruct (f_term s); [left; left; reflexivity|].
    destruct (Nat.lt_ge_cases (SS - length (sdata (es ++ B, false))) 7); [left; right; assumption|right]. intros [K|K]; [discriminate|lia].
Qed.
End Save.
