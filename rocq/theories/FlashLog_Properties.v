(** C35: the flash log. *)
From Coq Require Import List NArith Bool Arith Lia ZifyBool ZifyNat ZifyN.
From Verif Require Import Base RamLog_Model RamLog_Spec FlashLog_Model FlashLog_Spec FlashLog_Scan_Proofs FlashLog_Save_Proofs FlashLog_Proofs FlashLog_Reboot_Proofs.
Import ListNotations.

Definition blank : flash := fun _ => 255%N.
Definition start_log (SS NS : nat) : flog * flash := (init_state SS NS blank, blank).

Section Track.
Variable SS NS : nat.
Hypothesis SS_low : 7 < SS.
Hypothesis SS_high : (N.of_nat SS < 2 ^ 15)%N.
Hypothesis NS_low : 2 <= NS.

Definition track (n : N) (d : bool) (c : account) (s : flog) (m : flash) : Prop :=
  exists A B off D, inv SS NS s m d A B off /\ live c = D ++ concat (map fst A) ++ B /\ (exists r1, risky c = r1 ++ B) /\
    numbered (base c) (live c) /\ f_id s = next_number c /\ (D <> [] -> NS - 1 <= length A) /\ (next_number c <= n)%N.

Lemma concat_count : forall A : list sect, Forall (fun x => fst x <> []) A -> length A <= length (concat (map fst A)).
Proof.
  clear. induction A as [|x A IH]; intros H; [cbn; lia|]. inversion_clear H as [|? ? H1 H2]. cbn [map concat length]. rewrite app_length.
  specialize (IH H2). destruct x as [[|e es] t]; cbn [fst] in *; [congruence|cbn [length]; lia].
Qed.

Lemma blank_start : track 0 false (Account 0 [] []) (init_state SS NS blank) blank.
Proof.
  assert (H : inv SS NS (FLog [] SS false 0 (repeat 0 NS) 0 0) blank false [] [] 0).
  { split; cbn [f_start f_used f_buf f_remain f_term f_next]; auto; try lia; try discriminate.
    - split; cbn [length]; try lia.
      + intros k K. rewrite nth_overflow by (cbn; lia). unfold sbytes, sdata, none; cbn [fst snd stream map concat app length]. rewrite Nat.sub_0_r.
        apply nth_ext with 0%N 0%N; rewrite length_rd; [rewrite repeat_length; reflexivity|]. intros i I. rewrite nth_rd, nth_rep by exact I. reflexivity.
      + apply repeat_length.
      + intros k K. rewrite nth_rep by (apply Nat.mod_upper_bound; lia). rewrite nth_overflow by (cbn; lia). reflexivity.
      + constructor.
    - left. split; [reflexivity|]. split; [constructor|]. cbn [length Nat.add]. rewrite Nat.mod_0_l by lia. lia. }
  destruct (reboot_spec SS NS SS_low SS_high NS_low _ _ _ _ _ 0%N H Logic.I) as [H1 H2].
  exists [], [], 0, []. split; [exact H1|]. split; [reflexivity|]. split; [exists []; reflexivity|]. split; [exact Logic.I|]. split; [exact H2|].
  split; [congruence|]. unfold next_number; cbn. lia.
Qed.

Lemma next_snoc : forall c e, next_number (Account (base c) (safe c) (risky c ++ [e])) = (next_number c + 1)%N.
Proof. clear. intros c e. unfold next_number, live; cbn [base safe risky]. rewrite !app_length; cbn [length]. lia. Qed.

Lemma track_step : forall n d c s m o s' m' r, track n d c s m -> whole o = true -> (d = true -> o <> Reboot) -> op_bytes o -> (n + 1 < 2 ^ 32)%N ->
  step SS NS (s, m) o = (s', m', r) -> exists c', spec_step c o r c' /\ track (n + 1) (pending d o r) c' s' m'.
Proof.
  intros n d c s m o s' m' r (A & B & off & D & IV & LV & (r1 & RK) & NU & ID & DR & NB) WH RB OB NN E.
  destruct o as [e ef w|ef w|ef|]; cbn [step] in E.
  - assert (WP : forall k, w <> WPart k) by (intros k ->; discriminate).
    destruct (create_spec SS NS SS_low SS_high NS_low _ _ _ _ _ _ _ _ _ _ _ _ IV WP OB ltac:(lia) E) as (A' & B' & off' & X & IV' & XL & AL & R).
    assert (DX : D ++ X <> [] -> NS - 1 <= length A').
    { intros K. destruct X as [|x X]; [rewrite app_nil_r in K; auto|apply XL; discriminate]. }
    destruct r.
    + destruct R as (ID' & CC & (B0 & EB & BB) & _ & _). exists (Account (base c) (safe c) (risky c ++ [(next_number c, e)])).
      split; [constructor|]. exists A', B', off', (D ++ X). split; [exact IV'|]. rewrite <- ID.
      assert (LV' : live (Account (base c) (safe c) (risky c ++ [(f_id s, e)])) = live c ++ [(f_id s, e)])
        by (unfold live; cbn [safe risky]; rewrite app_assoc; reflexivity).
      split; [rewrite LV', LV, <- !app_assoc, <- CC; reflexivity|]. split.
      { cbn [risky]. rewrite RK, EB. destruct BB as [->| ->]; [exists r1; rewrite app_assoc; reflexivity|exists (r1 ++ B); reflexivity]. }
      split; [rewrite LV', ID; apply numbered_snoc; exact NU|]. split; [rewrite next_snoc; congruence|]. split; [exact DX|]. rewrite next_snoc. lia.
    + destruct R as (ID' & CC & -> & _). exists c. split; [constructor; discriminate|]. exists A', B, off', (D ++ X). split; [exact IV'|].
      split; [rewrite LV, CC, <- app_assoc; reflexivity|]. split; [exists r1; exact RK|]. split; [exact NU|]. split; [congruence|]. split; [exact DX|]. lia.
    + destruct R as (ID' & CC & -> & _). exists c. split; [constructor; discriminate|]. exists A', B, off', (D ++ X). split; [exact IV'|].
      split; [rewrite LV, CC, <- app_assoc; reflexivity|]. split; [exists r1; exact RK|]. split; [exact NU|]. split; [congruence|]. split; [exact DX|]. lia.
    + destruct R as (ID' & CC & -> & _). exists c. split; [constructor; discriminate|]. exists A', B, off', (D ++ X). split; [exact IV'|].
      split; [rewrite LV, CC, <- app_assoc; reflexivity|]. split; [exists r1; exact RK|]. split; [exact NU|]. split; [congruence|]. split; [exact DX|]. lia.
    + destruct R as (_ & _ & _ & [[K _]|[[K _]|[K _]]]); discriminate.
  - assert (WP : forall k, w <> WPart k) by (intros k ->; discriminate). unfold flush in E.
    destruct (save_spec SS NS SS_low SS_high NS_low _ _ _ _ _ _ _ _ _ _ _ IV WP E) as (A' & B' & off' & X & IV' & ID' & CC & XL & AL & R).
    assert (DX : D ++ X <> [] -> NS - 1 <= length A').
    { intros K. destruct X as [|x X]; [rewrite app_nil_r in K; auto|apply XL; discriminate]. }
    destruct r; try (destruct R; fail).
    + destruct R as (-> & _). exists (Account (base c) (live c) []). split; [constructor|]. exists A', [], off', (D ++ X). split; [exact IV'|].
      assert (LV' : live (Account (base c) (live c) []) = live c) by (unfold live; cbn [safe risky]; apply app_nil_r).
      assert (NX : next_number (Account (base c) (live c) []) = next_number c) by (unfold next_number; rewrite LV'; reflexivity).
      rewrite LV', NX. split; [rewrite LV, CC, <- app_assoc; reflexivity|]. split; [exists []; reflexivity|]. split; [exact NU|]. split; [congruence|]. split; [exact DX|]. lia.
    + destruct R as (-> & _). exists c. split; [constructor; discriminate|]. exists A', B, off', (D ++ X). split; [exact IV'|].
      split; [rewrite LV, CC, <- app_assoc; reflexivity|]. split; [exists r1; exact RK|]. split; [exact NU|]. split; [congruence|]. split; [exact DX|]. lia.
    + destruct R as (-> & _). exists c. split; [constructor; discriminate|]. exists A', B, off', (D ++ X). split; [exact IV'|].
      split; [rewrite LV, CC, <- app_assoc; reflexivity|]. split; [exists r1; exact RK|]. split; [exact NU|]. split; [congruence|]. split; [exact DX|]. lia.
  - destruct ef.
    + cbn [clear] in E. injection E as <- <- <-. exists c. split; [constructor; discriminate|]. exists A, B, off, D. split; [exact IV|]. 
      split; [exact LV|]. split; [exists r1; exact RK|]. split; [exact NU|]. split; [exact ID|]. split; [exact DR|]. lia.
    + assert (RO : r = Ok) by (unfold clear in E; congruence). subst r.
      destruct (clear_spec SS NS SS_low SS_high NS_low _ _ _ _ _ _ _ _ IV E) as [IV' ID'].
      exists (Account (next_number c) [] []). split; [constructor|]. exists [], [], 0, []. split; [exact IV'|]. split; [reflexivity|].
      split; [exists []; reflexivity|]. split; [exact Logic.I|]. assert (NX : next_number (Account (next_number c) [] []) = next_number c) by (unfold next_number at 1; cbn; lia).
      rewrite NX. split; [congruence|]. split; [congruence|]. lia.
  - destruct d; [destruct (RB eq_refl eq_refl)|]. injection E as <- <- <-.
    assert (NA : numbered (base c + N.of_nat (length D)) (concat (map fst A))).
    { rewrite LV in NU. apply numbered_app in NU. destruct NU as [_ NU]. apply numbered_app in NU. apply NU. }
    destruct (reboot_spec SS NS SS_low SS_high NS_low _ _ _ _ _ _ IV NA) as [IV' ID'].
    assert (LS : safe c ++ r1 = D ++ concat (map fst A)).
    { unfold live in LV. rewrite RK, !app_assoc in LV. apply app_inv_tail in LV. exact LV. }
    eexists. split; [exact (Sp_reboot c r1 B RK)|]. exists A, [], off, D. split; [exact IV'|].
    unfold next_number, live; cbn [safe risky base]. rewrite app_nil_r, LS.
    split; [rewrite app_nil_r; reflexivity|]. split; [exists []; reflexivity|].
    assert (NL : numbered (base c) (D ++ concat (map fst A))).
    { rewrite LV, app_assoc in NU. apply numbered_app in NU. apply NU. }
    assert (LE : (base c + N.of_nat (length (D ++ concat (map fst A))) <= next_number c)%N) by (unfold next_number; rewrite LV, app_assoc, (app_length (D ++ _)); lia).
    rewrite ID'. destruct A as [|x A].
    + assert (D0 : D = []) by (destruct D; [reflexivity|specialize (DR ltac:(discriminate)); cbn in DR; lia]). subst D.
      cbn [map concat app length numbered]. split; [exact Logic.I|]. split; [lia|]. split; [congruence|]. lia.
    + assert (NE : D ++ concat (map fst (x :: A)) <> []).
      { intros K. apply app_eq_nil in K. destruct K as [_ K]. pose proof (i_ne _ _ _ _ _ _ _ _ IV) as Z.
        pose proof (concat_count _ Z) as Y. rewrite K in Y. cbn [length] in Y. lia. }
      destruct (D ++ concat (map fst (x :: A))) as [|y l] eqn:EL; [congruence|]. rewrite <- EL in *.
      split; [exact NL|]. split; [rewrite app_length; lia|]. split; [exact DR|]. lia.
Qed.

Lemma track_run : forall ops n d c s m s' m' rs, track n d c s m -> Forall op_bytes ops -> (n + N.of_nat (length ops) < 2 ^ 32)%N ->
  run SS NS (s, m) ops = (s', m', rs) -> calm d ops rs = true ->
  exists c' n' d', spec_run c ops rs c' /\ track n' d' c' s' m' /\ (n' = n + N.of_nat (length ops))%N.
Proof.
  induction ops as [|o ops IH]; intros n d c s m s' m' rs T OB N E C; cbn [run] in E.
  - injection E as <- <- <-. exists c, n, d. split; [constructor|]. split; [exact T|]. cbn [length]. lia.
  - destruct (step SS NS (s, m) o) as [[s1 m1] r] eqn:ST. destruct (run SS NS (s1, m1) ops) as [[s2 m2] rs2] eqn:RN.
    injection E as <- <- <-. cbn [calm] in C. apply andb_true_iff in C. destruct C as [C C2]. apply andb_true_iff in C. destruct C as [C0 C1].
    inversion_clear OB as [|? ? O1 O2]. cbn [length] in N.
    assert (RB : d = true -> o <> Reboot) by (intros -> ->; discriminate).
    destruct (track_step n d c s m o s1 m1 r T C0 RB O1 ltac:(lia) ST) as (c1 & SP & T1).
    destruct (IH _ _ _ _ _ _ _ _ T1 O2 ltac:(lia) RN C2) as (c2 & n2 & d2 & SR & T2 & EN).
    exists c2, n2, d2. split; [econstructor; eassumption|]. split; [exact T2|]. cbn [length]. lia.
Qed.

Lemma track_read : forall n d c s m, track n d c s m -> exists dropped kept,
  live c = dropped ++ kept /\ (dropped <> [] -> NS - 1 <= length kept) /\
  (forall offset len, read_contents SS NS s m offset len = Some (window offset len (stream kept))) /\
  get_size s = length (stream kept).
Proof.
  intros n d c s m (A & B & off & D & IV & LV & _ & _ & _ & DR & _).
  exists D, (concat (map fst A) ++ B). split; [exact LV|]. split.
  - intros K. specialize (DR K). pose proof (concat_count _ (i_ne _ _ _ _ _ _ _ _ IV)). rewrite app_length. lia.
  - split; [intros; apply (read_spec SS NS SS_low SS_high NS_low _ _ _ _ _ _ _ _ IV)|apply (size_spec SS NS SS_low SS_high NS_low _ _ _ _ _ _ IV)].
Qed.
End Track.

(** C35: after any history of creating, flushing, clearing and restarting, with erases and writes that fail, the log
    reads, through any window, as the encoding of the newest entries of the history.  Entries are dropped only from the
    old end, and only when at least one entry per sector but one is left. *)
Theorem C35_log : forall SS NS ops s m rs, 7 < SS -> (N.of_nat SS < 2 ^ 15)%N -> 2 <= NS ->
  Forall op_bytes ops -> (N.of_nat (length ops) < 2 ^ 32)%N ->
  run SS NS (start_log SS NS) ops = (s, m, rs) -> calm false ops rs = true ->
  exists c dropped kept, spec_run (Account 0 [] []) ops rs c /\ live c = dropped ++ kept /\
    (dropped <> [] -> NS - 1 <= length kept) /\
    (forall offset len, read_contents SS NS s m offset len = Some (window offset len (stream kept))) /\
    get_size s = length (stream kept).
Proof.
  intros SS NS ops s m rs S1 S2 N2 OB LN E C.
  destruct (track_run SS NS S1 S2 N2 ops 0 false (Account 0 [] []) _ _ s m rs (blank_start SS NS S1 S2 N2) OB ltac:(lia) E C) as (c & n & d & SR & T & _).
  destruct (track_read SS NS S1 S2 N2 _ _ _ _ _ T) as (dr & ke & L1 & L2 & L3 & L4). exists c, dr, ke. auto.
Qed.
Print Assumptions C35_log.

(** C35: what was flushed reads the same after a restart. *)
Theorem C35_restart : forall SS NS ops s m rs ef w s1 m1 s2 m2 r, 7 < SS -> (N.of_nat SS < 2 ^ 15)%N -> 2 <= NS ->
  Forall op_bytes ops -> (N.of_nat (length ops) + 2 < 2 ^ 32)%N ->
  run SS NS (start_log SS NS) ops = (s, m, rs) -> calm false ops rs = true -> (forall k, w <> WPart k) ->
  step SS NS (s, m) (Flush ef w) = (s1, m1, Ok) -> step SS NS (s1, m1) Reboot = (s2, m2, r) ->
  r = Ok /\ get_size s2 = get_size s1 /\ forall offset len, read_contents SS NS s2 m2 offset len = read_contents SS NS s1 m1 offset len.
Proof.
  intros SS NS ops s m rs ef w s1 m1 s2 m2 r S1 S2 N2 OB LN E C WP F R.
  destruct (track_run SS NS S1 S2 N2 ops 0 false (Account 0 [] []) _ _ s m rs (blank_start SS NS S1 S2 N2) OB ltac:(lia) E C) as (c & n & d & SR & T & EN).
  destruct T as (A & B & off & D & IV & LV & _ & NU & ID & DR & NB).
  destruct (save_spec SS NS S1 S2 N2 _ _ _ _ _ _ _ _ _ _ _ IV WP F) as (A' & B' & off' & X & IV' & ID' & CC & _ & _ & (-> & _)).
  cbn [after] in IV'. cbn [step] in R. injection R as <- <- <-.
  assert (NA : exists a, numbered a (concat (map fst A'))).
  { rewrite LV in NU. apply numbered_app in NU. destruct NU as [_ NU]. rewrite CC in NU. apply numbered_app in NU. destruct NU as [_ NU].
    rewrite app_nil_r in NU. eauto. }
  destruct NA as [a NA]. destruct (reboot_spec SS NS S1 S2 N2 _ _ _ _ _ _ IV' NA) as [IV2 _].
  split; [reflexivity|]. split.
  - rewrite (size_spec SS NS S1 S2 N2 _ _ _ _ _ _ IV2), (size_spec SS NS S1 S2 N2 _ _ _ _ _ _ IV'). reflexivity.
  - intros o l. rewrite (read_spec SS NS S1 S2 N2 _ _ _ _ _ _ _ _ IV2), (read_spec SS NS S1 S2 N2 _ _ _ _ _ _ _ _ IV'). reflexivity.
Qed.
Print Assumptions C35_restart.

(** C35: an operation fails only for its own reasons: a bad length, or a device that failed during it. *)
Theorem C35_status : forall SS NS ops s m rs, 7 < SS -> (N.of_nat SS < 2 ^ 15)%N -> 2 <= NS ->
  Forall op_bytes ops -> (N.of_nat (length ops) + 1 < 2 ^ 32)%N ->
  run SS NS (start_log SS NS) ops = (s, m, rs) -> calm false ops rs = true ->
  (forall e ef w s' m' r, bytes_ok e -> (forall k, w <> WPart k) -> step SS NS (s, m) (Create e ef w) = (s', m', r) ->
     match r with
     | Ok => 0 < length e /\ length e <= SS - 7
     | BadLength => length e = 0 \/ SS - 7 < length e
     | EraseFailed => ef = true
     | WriteFailed => w = WFail
     | Incomplete => False
     end) /\
  (forall s' m' r, step SS NS (s, m) (Flush false WFull) = (s', m', r) -> r = Ok).
Proof.
  intros SS NS ops s m rs S1 S2 N2 OB LN E C.
  destruct (track_run SS NS S1 S2 N2 ops 0 false (Account 0 [] []) _ _ s m rs (blank_start SS NS S1 S2 N2) OB ltac:(lia) E C) as (c & n & d & SR & T & EN).
  destruct T as (A & B & off & D & IV & LV & _ & NU & ID & DR & NB). split.
  - intros e ef w s' m' r BE WP ST.
    destruct (create_spec SS NS S1 S2 N2 _ _ _ _ _ _ _ _ _ _ _ _ IV WP BE ltac:(lia) ST) as (A' & B' & off' & X & _ & _ & _ & R).
    destruct r.
    + lia.
    + destruct R as (_ & _ & _ & [[_ K]|[[K _]|[K _]]]); [lia|discriminate|discriminate].
    + destruct R as (_ & _ & _ & [[K _]|[[_ K]|[K _]]]); [discriminate|exact K|discriminate].
    + destruct R as (_ & _ & _ & [[K _]|[[K _]|[_ K]]]); [discriminate|discriminate|exact K].
    + destruct R as (_ & _ & _ & [[K _]|[[K _]|[K _]]]); discriminate.
  - intros s' m' r ST. assert (WP : forall k, WFull <> WPart k) by (intros k; discriminate).
    destruct (save_spec SS NS S1 S2 N2 _ _ _ _ _ _ _ _ _ _ _ IV WP ST) as (A' & B' & off' & X & _ & _ & _ & _ & _ & R).
    destruct r; try (destruct R as [_ R]; discriminate); try (destruct R); reflexivity.
Qed.
Print Assumptions C35_status.

(** A history that wraps around, with failures and restarts, and what it leaves: sectors of 16 bytes. *)
Definition entry9 (b : N) : list N := repeat b 9.
Definition wrapped : list op :=
  [Create (entry9 1) false WFull; Create (entry9 2) true WFull; Create (entry9 2) false WFull; Create (entry9 3) false WFull;
   Flush false WFail; Flush false WFull; Reboot; Create (entry9 4) false WFull; Create [] false WFull].
Example C35_wrapped : let '(s, m, rs) := run 16 2 (start_log 16 2) wrapped in
  Forall op_bytes wrapped /\ calm false wrapped rs = true /\ rs = [Ok; EraseFailed; Ok; Ok; WriteFailed; Ok; Ok; Ok; BadLength] /\
  read_contents 16 2 s m 0 1000 = Some (stream [(1%N, entry9 2); (2%N, entry9 3); (3%N, entry9 4)]).
Proof.
  assert (B : Forall op_bytes wrapped).
  { unfold wrapped. repeat constructor. }
  set (x := run 16 2 (start_log 16 2) wrapped).
  assert (R : snd x = [Ok; EraseFailed; Ok; Ok; WriteFailed; Ok; Ok; Ok; BadLength]) by (vm_compute; reflexivity).
  assert (G : read_contents 16 2 (fst (fst x)) (snd (fst x)) 0 1000 = Some (stream [(1%N, entry9 2); (2%N, entry9 3); (3%N, entry9 4)]))
    by (vm_compute; reflexivity).
  destruct x as [[s m] rs]. cbn [fst snd] in *. rewrite R. split; [exact B|]. split; [reflexivity|]. split; [reflexivity|exact G].
Qed.
Example C35_hypotheses : (7 < 4096) /\ (N.of_nat 4096 < 2 ^ 15)%N /\ 2 <= 16.
Proof. split; [apply Nat.leb_le; reflexivity|]. split; [reflexivity|apply Nat.leb_le; reflexivity]. Qed.

(** C35: a restart between the erase of the first sector and a write to it hides the rest of the log: it reads as empty
    although its size is not 0. *)
Definition hidden : list op :=
  [Create (entry9 1) false WFull; Create (entry9 2) false WFull; Create (entry9 3) false WFull; Flush false WFail; Reboot].
Theorem C35_hidden_refuted : exists ops, Forall op_bytes ops /\ forallb whole ops = true /\
  let '(s, m, rs) := run 16 2 (start_log 16 2) ops in get_size s = 16 /\ forall offset len, read_contents 16 2 s m offset len = Some [].
Proof.
  exists hidden. split; [unfold hidden; repeat constructor|]. split; [reflexivity|].
  set (x := run 16 2 (start_log 16 2) hidden).
  assert (Z : get_size (fst (fst x)) = 16) by (vm_compute; reflexivity).
  assert (U : nth (f_start (fst (fst x))) (f_used (fst (fst x))) 0 = 0) by (vm_compute; reflexivity).
  assert (BF : f_buf (fst (fst x)) = [] /\ f_term (fst (fst x)) = false) by (split; vm_compute; reflexivity).
  destruct x as [[s m] rs]. cbn [fst snd] in *. split; [exact Z|]. destruct BF as [BF TF].
  intros offset len. unfold read_contents. cbn [read_sectors]. rewrite U. cbn [Nat.eqb negb]. rewrite andb_false_r.
  rewrite BF, TF. cbn [andb length]. unfold window. rewrite skipn_nil, firstn_nil. reflexivity.
Qed.
Print Assumptions C35_hidden_refuted.

(** C35: a write that stops inside the marker that ends a sector makes the next read go outside the buffer. *)
Theorem C35_partial_write_refuted : exists ops, Forall op_bytes ops /\
  let '(s, m, rs) := run 32 2 (start_log 32 2) ops in read_contents 32 2 s m 0 100 = None.
Proof.
  exists [Create (entry9 1) false WFull; Create (repeat 2%N 12) false (WPart 20)]. split; [repeat constructor|].
  set (x := run 32 2 (start_log 32 2) _).
  assert (Z : read_contents 32 2 (fst (fst x)) (snd (fst x)) 0 100 = None) by (vm_compute; reflexivity).
  destruct x as [[s m] rs]. exact Z.
Qed.
Print Assumptions C35_partial_write_refuted.
