(** Manifests: verification ends, and accepts every manifest that is as it should be. *)
From Coq Require Import List NArith Lia Bool Arith.
From Coq Require Import ZifyBool ZifyNat ZifyN.
From Verif Require Import Base Pcr_Proofs Manifest_Model Manifest_Spec Manifest_Proofs Manifest_Verify_Proofs.
Import ListNotations.
Local Open Scope N_scope.

(** * Reading what was encoded *)

Lemma u16_le16 : forall v x y, v < 65536 -> u16 (x ++ le16 v ++ y) (length x) = v.
Proof.
  intros v x y V. unfold u16, window. rewrite skipn_app, Nat.sub_diag, skipn_all, app_nil_l. cbn [skipn]. unfold le16. cbn [app firstn le_value].
  pose proof (N.div_mod v 256 ltac:(lia)). assert (v / 256 < 256) by (apply N.div_lt_upper_bound; lia). rewrite (N.mod_small (v / 256)) by auto. lia.
Qed.

Lemma u32_le32 : forall v x y, v < 2 ^ 32 -> u32 (x ++ le32 v ++ y) (length x) = v.
Proof.
  intros v x y V. unfold u32, window. rewrite skipn_app, Nat.sub_diag, skipn_all, app_nil_l. cbn [skipn]. unfold le32. cbn [app firstn le_value].
  change 65536 with (256 * 256). change 16777216 with (256 * 256 * 256). rewrite <- !N.div_div by lia.
  set (a := v / 256). set (b := a / 256). set (d := b / 256).
  pose proof (N.div_mod v 256 ltac:(lia)) as D1. pose proof (N.div_mod a 256 ltac:(lia)) as D2. pose proof (N.div_mod b 256 ltac:(lia)) as D3.
  fold a in D1. fold b in D2. fold d in D3.
  assert (d < 256).
  { unfold d, b, a. rewrite !N.div_div by lia. apply N.div_lt_upper_bound; lia. }
  rewrite (N.mod_small d) by auto. generalize dependent (v mod 256). generalize dependent (a mod 256). generalize dependent (b mod 256). clearbody a b d. intros. lia.
Qed.

Lemma parse_enc_entry : forall e, entry_fits e -> parse_entry (enc_entry e) = e.
Proof.
  intros [ty pa fm hs off len] (A & B & C & D & E & F). cbn [e_type e_parent e_format e_hash e_offset e_length] in *. unfold parse_entry. f_equal.
  - exact (u16_le16 off [ty; pa; fm; hs] (le16 len) E).
  - pose proof (u16_le16 len ([ty; pa; fm; hs] ++ le16 off) [] F) as X. rewrite app_nil_r, <- app_assoc in X. exact X.
Qed.

Lemma parse_enc_header : forall h r, header_fits h -> parse_header (enc_header h r) = h.
Proof.
  intros [len mg id sg st] r (A & B & C & D & E). cbn [h_length h_magic h_id h_sig h_sigtype] in *. unfold parse_header. f_equal.
  - exact (u16_le16 len [] _ A).
  - exact (u16_le16 mg (le16 len) _ B).
  - exact (u32_le32 id (le16 len ++ le16 mg) _ C).
  - exact (u16_le16 sg (le16 len ++ le16 mg ++ le32 id) _ D).
Qed.

(** * Every table but the last takes 2044 bytes or more *)

Lemma extension_full : forall allow ty hl off extra t x, toc_ok allow ty hl off extra t -> extension t = Some x ->
  length (tc_entries t) = 255%nat /\ nth_error (tc_entries t) 254 = Some x /\ allow = true /\ e_hash x < N.of_nat (length (tc_hashes t)) /\
  off + N.of_nat (length (enc_toc t)) + extra <= e_offset x /\ e_offset x < 65536 /\ 2044 <= N.of_nat (length (enc_toc t)).
Proof.
  intros allow ty hl off extra t x [K1 K2 K3 K4 K5 K6 K7] E. destruct (extension_spec t x E) as (T & n & L & N0).
  destruct (K7 _ _ N0 T) as (A & -> & HH). split; [auto|]. split; [auto|]. split; [auto|]. split; [auto|].
  split. { clear - K6 N0. revert K6 N0. generalize 254%nat. generalize (tc_entries t). generalize (off + N.of_nat (length (enc_toc t)) + extra).
    intros p l. revert p. induction l as [|y l IH]; intros p n A N0; [destruct n; discriminate|]. cbn [ascending] in A. destruct A as (A1 & A2).
    destruct n; cbn in N0; [injection N0 as <-; auto|]. specialize (IH _ _ A2 N0). lia. }
  split. { rewrite Forall_forall in K4. apply nth_error_In in N0. apply K4 in N0. unfold entry_fits in N0. tauto. }
  rewrite (length_enc_toc t hl K3), L. unfold toc_length, TOC_HEADER, ENTRY_LEN. lia.
Qed.

Lemma follow_short : forall allow ty hl pos e rest ts, follow allow ty hl pos e rest ts -> forall x, e = Some x -> e_offset x < 65536 ->
  e_offset x + 2044 * N.of_nat (length ts) <= 65536 + 2044.
Proof.
  intros allow ty hl pos e rest ts F. induction F as [|pos e gap t rest ts G L K F IH]; intros x E X; [discriminate|]. injection E as <-.
  cbn [length]. destruct (extension t) as [y|] eqn:EX.
  - destruct (extension_full _ _ _ _ _ _ _ K EX) as (_ & _ & _ & _ & O & S & Z). specialize (IH y eq_refl S). lia.
  - inversion F; subst. cbn [length]. lia.
Qed.

(** * Verification ends *)

Lemma bind_err : forall A B (f : M A) (g : A -> M B) s s' e, bind f g s = (s', Err e) ->
  f s = (s', Err e) \/ exists s1 a, f s = (s1, Ok a) /\ g a s1 = (s', Err e).
Proof. intros A B f g s s' e H. unfold bind in H. destruct (f s) as [s1 [a|e1]]; [right; eauto|left]. now injection H as <- <-. Qed.

Definition ends {A} (f : M A) : Prop := forall s s', f s <> (s', Err MEndless).
Lemma ends_bind : forall A B (f : M A) (g : A -> M B), ends f -> (forall a, ends (g a)) -> ends (bind f g).
Proof. intros A B f g F G s s' H. apply bind_err in H. destruct H as [H|(s1 & a & _ & H)]; [exact (F _ _ H)|exact (G _ _ _ H)]. Qed.
Lemma ends_ret : forall A (a : A), ends (ret a).
Proof. intros A a s s' H. discriminate. Qed.
Lemma ends_fail : forall A e, e <> MEndless -> ends (fail e : M A).
Proof. intros A e N0 s s' H. injection H as _ H. congruence. Qed.
Lemma ends_check : forall b e, e <> MEndless -> ends (check b e).
Proof. intros b e N0. unfold check. destruct b; [apply ends_ret|now apply ends_fail]. Qed.

Section Ends.
Variable c : mcfg.
Variable rd : nat -> N -> nat -> option (list N).

Lemma ends_flash_read : forall a n, ends (flash_read c rd a n).
Proof. intros a n s s' H. unfold flash_read in H. injection H as _ H. destruct (_ <? _); [discriminate|]. destruct (rd _ _ _); discriminate. Qed.
Lemma ends_update : forall l, ends (update l).
Proof. intros l s s' H. discriminate. Qed.
Lemma ends_read_hash : forall a n, ends (read_hash c rd a n).
Proof. intros a n. unfold read_hash. destruct (n =? 0); [apply ends_ret|]. apply ends_bind; [apply ends_flash_read|]. intros l. apply ends_bind; [apply ends_update|]. intros. apply ends_ret. Qed.
Lemma ends_blocks : forall f a n, ends (hash_blocks c rd f a n).
Proof.
  induction f as [|f IH]; intros a n; cbn [hash_blocks]; [apply ends_ret|]. destruct n; [apply ends_ret|]. cbv zeta.
  apply ends_bind; [apply ends_flash_read|]. intros l. apply ends_bind; [apply ends_update|]. intros. apply IH.
Qed.
Lemma ends_range : forall a n, ends (hash_range c rd a n).
Proof. intros a n. unfold hash_range. destruct (n =? 0); [apply ends_ret|]. destruct (_ <? _); [apply ends_fail; discriminate|apply ends_blocks]. Qed.
Lemma ends_entries : forall n i next prev t ext plat lst fnd, ends (verify_entries c rd n i next prev t ext plat lst fnd).
Proof.
  induction n as [|n IH]; intros; cbn [verify_entries]; [apply ends_ret|]. apply ends_bind; [apply ends_read_hash|]. intros l. cbv zeta.
  apply ends_bind; [apply ends_check; discriminate|]. intros _. apply ends_bind; [destruct (_ =? _); [apply ends_check; discriminate|apply ends_ret]|]. intros _. apply IH.
Qed.
Lemma ends_engine : forall eng, ends (engine eng).
Proof. intros eng s s' H. unfold engine in H. injection H as _ H. destruct (eng _); discriminate. Qed.
Lemma ends_start : forall eng, ends (start_hash eng).
Proof. intros eng. unfold start_hash. apply ends_bind; [apply ends_engine|]. intros _ s s' H. discriminate. Qed.

Hypothesis Hrd : flash_ok rd.
Hypothesis Hsize : c_size c < 2 ^ 32.
Hypothesis Haddr : c_addr c + 65536 <= 2 ^ 32.

Lemma tocs_end_more : forall fuel from r ext count s s', e_offset from < 65536 -> 65536 <= e_offset from + 2044 * N.of_nat fuel ->
  verify_tocs c rd fuel (c_addr c + e_offset from) (Some r) from ext count s <> (s', Err MEndless).
Proof.
  induction fuel as [|f IH]; intros from r ext count s s' O B H; [lia|]. cbn [verify_tocs] in H. cbv zeta in H. unfold TOC_HEADER, ENTRY_LEN in H.
  apply bind_err in H. destruct H as [H|(s1 & th & R & H)]; [exact (ends_read_hash _ _ _ _ H)|].
  apply bind_err in H. destruct H as [H|(s2 & ? & K & H)]; [exact (ends_check _ MTocInvalid ltac:(discriminate) _ _ H)|]. apply check_ok in K. destruct K as (K & ->).
  apply bind_err in H. destruct H as [H|(s3 & hl & K2 & H)].
  { apply bind_err in H. destruct H as [H|(? & ? & _ & H)]; [exact (ends_check _ MTocMismatch ltac:(discriminate) _ _ H)|].
    apply bind_err in H. destruct H as [H|(? & ? & _ & H)]; [exact (ends_check _ MExtension ltac:(discriminate) _ _ H)|discriminate]. }
  apply bind_ok in K2. destruct K2 as (s4 & ? & K3 & K2). apply check_ok in K3. destruct K3 as (K3 & ->).
  apply bind_ok in K2. destruct K2 as (s5 & ? & K4 & K2). apply check_ok in K4. destruct K4 as (K4 & ->).
  apply ret_ok in K2. destruct K2 as (-> & ->).
  apply bind_err in H. destruct H as [H|(s6 & [[[n1 plat] lst] fnd] & V & H)]; [exact (ends_entries _ _ _ _ _ _ _ _ _ _ _ H)|].
  apply bind_err in H. destruct H as [H|(s7 & xr & HR & H)]; [exact (ends_range _ _ _ _ H)|].
  apply bind_err in H. destruct H as [H|(s8 & [n2 r2] & Y & H)]; [discriminate|]. apply ret_ok in Y. destruct Y as (-> & Y).
  destruct (one_table c rd Hrd Hsize Haddr th s s1 s6 s7 xr (r_hl r) (c_addr c + e_offset from) 0 ext n1 plat lst fnd R ltac:(lia) V HR ltac:(lia))
    as (t & T1 & T2 & T3 & T4 & T5 & T6 & T7 & T8 & T9 & T10).
  destruct fnd; [|discriminate]. apply bind_err in H. destruct H as [H|(s9 & ? & G & H)]; [exact (ends_range _ _ _ _ H)|].
  destruct (extension_full _ _ _ _ _ _ _ T3 (eq_sym T5)) as (_ & _ & _ & _ & F1 & F2 & F3).
  revert H. apply IH; lia.
Qed.

Lemma tocs_end : forall fuel ext s s', (34 <= fuel)%nat ->
  verify_tocs c rd fuel (c_addr c + 12) None no_entry ext 0 s <> (s', Err MEndless).
Proof.
  intros fuel ext s s' FU H. destruct fuel as [|f]; [lia|]. cbn [verify_tocs] in H. cbv zeta in H. unfold TOC_HEADER, ENTRY_LEN in H.
  apply bind_err in H. destruct H as [H|(s1 & th & R & H)]; [exact (ends_read_hash _ _ _ _ H)|].
  apply bind_err in H. destruct H as [H|(s2 & ? & K & H)]; [exact (ends_check _ MTocInvalid ltac:(discriminate) _ _ H)|]. apply check_ok in K. destruct K as (K & ->).
  apply bind_err in H. destruct H as [H|(s3 & hl & K2 & H)]; [destruct (hash_len _); discriminate|].
  assert (s3 = s1) as -> by (destruct (hash_len _); [|discriminate]; apply ret_ok in K2; tauto).
  apply bind_err in H. destruct H as [H|(s6 & [[[n1 plat] lst] fnd] & V & H)]; [exact (ends_entries _ _ _ _ _ _ _ _ _ _ _ H)|].
  apply bind_err in H. destruct H as [H|(s7 & xr & HR & H)]; [exact (ends_range _ _ _ _ H)|].
  destruct (one_table c rd Hrd Hsize Haddr th s s1 s6 s7 xr hl (c_addr c + 12) hl ext n1 plat lst fnd R ltac:(lia) V HR ltac:(lia))
    as (t & T1 & T2 & T3 & T4 & T5 & T6 & T7 & T8 & T9 & T10).
  apply bind_err in H. destruct H as [H|(s8 & [n2 r2] & Y & H)].
  { revert H. destruct plat as [p|]; [|discriminate]. revert s7 s' HR T1.
    assert (X: ends (rh <- read_hash c rd (n1 + hl * t_hashes (parse_toc th)) hl ;;
       hash_range c rd (n1 + hl * t_hashes (parse_toc th) + hl) (sub32 (c_addr c + e_offset p) (n1 + hl * t_hashes (parse_toc th) + hl)) ;;;
       ph <- read_hash c rd (c_addr c + e_offset p) 4 ;; check (u8 ph 0 <=? c_max_id c) MIdTooLong ;;;
       id <- read_hash c rd (c_addr c + e_offset p + 4) (u8 ph 0) ;;
       ret (c_addr c + e_offset p + 4 + u8 ph 0, Root (convert_type (t_type (parse_toc th))) hl rh id))).
    { apply ends_bind; [apply ends_read_hash|]. intros ?. apply ends_bind; [apply ends_range|]. intros ?. apply ends_bind; [apply ends_read_hash|]. intros ?.
      apply ends_bind; [apply ends_check; discriminate|]. intros ?. apply ends_bind; [apply ends_read_hash|]. intros ?. apply ends_ret. }
    intros ? ? ? ? XX. exact (X _ _ XX). }
  destruct fnd; [|discriminate]. apply bind_err in H. destruct H as [H|(s9 & ? & G & H)]; [exact (ends_range _ _ _ _ H)|].
  destruct (extension_full _ _ _ _ _ _ _ T3 (eq_sym T5)) as (_ & _ & _ & _ & F1 & F2 & F3).
  revert H. apply tocs_end_more; lia.
Qed.

Lemma verify_ends : forall hash sig_ok eng s0, ends (verify hash sig_ok c rd eng s0).
Proof.
  intros hash sig_ok eng s0. unfold verify. cbv zeta. apply ends_bind.
  { unfold read_header. cbv zeta. apply ends_bind; [apply ends_flash_read|]. intros l. do 3 (apply ends_bind; [apply ends_check; discriminate|intros _]). apply ends_ret. }
  intros [h raw]. do 2 (apply ends_bind; [apply ends_check; discriminate|intros _]).
  apply ends_bind; [destruct (_ =? 0); [apply ends_ret|apply ends_flash_read]|]. intros sig.
  assert (VS: forall ty, ends (verify_signature hash sig_ok eng ty sig)).
  { intros ty. unfold verify_signature. apply ends_bind; [apply ends_check; discriminate|]. intros _. apply ends_bind; [apply ends_engine|]. intros _.
    apply ends_bind; [intros ? ? H; discriminate|]. intros d. apply ends_bind; [apply ends_engine|]. intros _. apply ends_bind; [apply ends_check; discriminate|]. intros _. apply ends_ret. }
  destruct (_ && _).
  - apply ends_bind; [apply ends_start|]. intros _. apply ends_bind; [apply ends_check; discriminate|]. intros _. apply ends_bind; [apply ends_range|]. intros _.
    apply ends_bind; [apply VS|]. intros d. apply ends_ret.
  - apply ends_bind; [apply ends_start|]. intros _. apply ends_bind; [apply ends_update|]. intros _.
    apply ends_bind; [intros s s'; apply tocs_end; unfold TABLES; lia|]. intros [[next count] r]. apply ends_bind; [apply ends_range|]. intros _.
    apply ends_bind; [apply VS|]. intros d. apply ends_ret.
Qed.
End Ends.

(** * Verification accepts *)

Definition runs {A} (f : M A) (acc acc' : list N) (x : A) : Prop := forall k, exists k', f (k, acc) = ((k', acc'), Ok x).

Lemma runs_bind : forall A B (f : M A) (g : A -> M B) a1 a2 a3 x y, runs f a1 a2 x -> runs (g x) a2 a3 y -> runs (bind f g) a1 a3 y.
Proof. intros A B f g a1 a2 a3 x y F G k. destruct (F k) as (k1 & F1). destruct (G k1) as (k2 & G1). exists k2. unfold bind. now rewrite F1, G1. Qed.
Lemma runs_ret : forall A (x : A) a, runs (ret x) a a x.
Proof. intros A x a k. now exists k. Qed.
Lemma runs_check : forall b e a, b = true -> runs (check b e) a a tt.
Proof. intros b e a ->. apply runs_ret. Qed.

Lemma runs_update : forall l a, runs (update l) a (a ++ l) tt.
Proof. intros l a k. now exists k. Qed.

Lemma runs_hashed : forall a, runs hashed a a a.
Proof. intros a k. now exists k. Qed.

Definition holds (m : image) (a : N) (l : list N) : Prop := img_read m a (length l) = l.
Lemma holds_app : forall m a x y, holds m a (x ++ y) -> holds m a x /\ holds m (a + N.of_nat (length x)) y.
Proof.
  intros m a x y H. unfold holds in *. rewrite app_length, img_read_app in H.
  split.
  - apply (f_equal (firstn (length x))) in H. rewrite !firstn_app, length_img_read, Nat.sub_diag, !firstn_O, !app_nil_r in H.
    rewrite firstn_all2 in H by (rewrite length_img_read; lia). now rewrite firstn_all in H.
  - apply (f_equal (skipn (length x))) in H. rewrite !skipn_app, length_img_read, Nat.sub_diag in H. cbn [skipn] in H.
    rewrite !skipn_all2 in H by (rewrite ?length_img_read; lia). exact H.
Qed.

Section Accepts.
Variable c : mcfg.
Variable m : image.
Notation rd := (stable m).

Lemma runs_read : forall a l acc, holds m a l -> a + N.of_nat (length l) <= c_size c -> runs (flash_read c rd a (N.of_nat (length l))) acc acc l.
Proof.
  intros a l acc H S k. exists (Datatypes.S k). unfold flash_read, stable. cbn [fst snd]. destruct (N.ltb_spec (c_size c) (a + N.of_nat (length l))); [lia|].
  now rewrite Nat2N.id, H.
Qed.
Lemma runs_read_hash : forall a l acc, holds m a l -> a + N.of_nat (length l) <= c_size c -> runs (read_hash c rd a (N.of_nat (length l))) acc (acc ++ l) l.
Proof.
  intros a l acc H S. unfold read_hash. destruct (N.eqb_spec (N.of_nat (length l)) 0) as [Z|Z].
  - destruct l; [|cbn [length] in Z; lia]. rewrite app_nil_r. apply runs_ret.
  - eapply runs_bind; [now apply runs_read|]. eapply runs_bind; [|apply runs_ret]. intros k. now exists k.
Qed.
Lemma runs_blocks : forall fuel a l acc, (length l <= fuel)%nat -> holds m a l -> a + N.of_nat (length l) <= c_size c ->
  runs (hash_blocks c rd fuel a (length l)) acc (acc ++ l) tt.
Proof.
  induction fuel as [|f IH]; intros a l acc F H S; cbn [hash_blocks].
  - destruct l; [|cbn [length] in F; lia]. rewrite app_nil_r. apply runs_ret.
  - destruct (length l) as [|n] eqn:L; [destruct l; [|discriminate]; rewrite app_nil_r; apply runs_ret|]. rewrite <- L. cbv zeta.
    set (q := Nat.min (length l) BLOCK). assert (Q: (0 < q <= length l)%nat) by (unfold q, BLOCK; lia).
    rewrite <- (firstn_skipn q l) in H. apply holds_app in H. destruct H as (H1 & H2).
    assert (L1: length (firstn q l) = q) by (rewrite firstn_length; lia).
    assert (L2: length (skipn q l) = (length l - q)%nat) by (rewrite skipn_length; lia).
    rewrite L1 in H2. clearbody q.
    eapply runs_bind. { rewrite <- L1 at 1. apply runs_read; [exact H1|lia]. }
    eapply runs_bind; [apply runs_update|].
    rewrite <- L2. replace (acc ++ l) with ((acc ++ firstn q l) ++ skipn q l) by (now rewrite <- app_assoc, firstn_skipn).
    apply IH; [lia|auto|lia].
Qed.
Lemma runs_range : forall a l acc n, n = N.of_nat (length l) -> holds m a l -> a + N.of_nat (length l) <= c_size c -> runs (hash_range c rd a n) acc (acc ++ l) tt.
Proof.
  intros a l acc n -> H S. unfold hash_range. destruct (N.eqb_spec (N.of_nat (length l)) 0) as [Z|Z].
  - destruct l; [|cbn [length] in Z; lia]. rewrite app_nil_r. apply runs_ret.
  - destruct (N.ltb_spec (c_size c) (a + N.of_nat (length l))); [lia|]. rewrite Nat2N.id. now apply runs_blocks.
Qed.

Lemma runs_entries : forall es i next prev t ext plat lst fnd acc, holds m next (flat_map enc_entry es) ->
  next + 8 * N.of_nat (length es) <= c_size c -> Forall entry_fits es -> ascending prev es ->
  (forall j e, nth_error es j = Some e -> e_type e = 1 -> ext = true /\ i + N.of_nat j = 254 /\ e_hash e < t_hashes t) ->
  runs (verify_entries c rd (length es) i next prev t ext plat lst fnd) acc (acc ++ flat_map enc_entry es)
    (next + 8 * N.of_nat (length es), match plat with Some p => Some p | None => find (fun e => e_type e =? 0) es end,
     last es lst, fnd || existsb (fun e => e_type e =? 1) es).
Proof.
  induction es as [|e es IH]; intros i next prev t ext plat lst fnd acc H S F A X.
  - cbn [verify_entries length flat_map find last existsb]. rewrite app_nil_r, orb_false_r, N.add_0_r. destruct plat; apply runs_ret.
  - cbn [verify_entries length flat_map]. inversion F as [|? ? F1 F2]; subst. cbn [ascending] in A. destruct A as (A1 & A2).
    cbn [flat_map] in H. apply holds_app in H. destruct H as (H1 & H2). rewrite length_enc_entry in H2. cbn [length] in S.
    eapply runs_bind; [exact (runs_read_hash next (enc_entry e) acc H1 ltac:(rewrite length_enc_entry; lia))|]. cbv zeta.
    rewrite parse_enc_entry by auto. eapply runs_bind; [apply runs_check; lia|].
    eapply runs_bind with (x := tt). { unfold T_EXTENSION, EXTENSION_ENTRY. destruct (N.eqb_spec (e_type e) 1) as [T|T]; [|apply runs_ret].
      destruct (X 0%nat e eq_refl T) as (-> & ? & ?). apply runs_check. lia. }
    replace (acc ++ enc_entry e ++ flat_map enc_entry es) with ((acc ++ enc_entry e) ++ flat_map enc_entry es) by (now rewrite app_assoc).
    match goal with |- runs (verify_entries _ _ _ ?i1 ?n1 ?p1 _ _ ?pl1 ?l1 ?f1) _ _ ?y =>
      replace y with (n1 + 8 * N.of_nat (length es), match pl1 with Some p => Some p | None => find (fun e => e_type e =? 0) es end, last es l1, f1 || existsb (fun e => e_type e =? 1) es) end.
    + apply IH; auto; [unfold ENTRY_LEN; lia|]. intros j y N0 T. destruct (X (Datatypes.S j) y N0 T) as (? & ? & ?). split; [auto|]. split; [lia|auto].
    + f_equal; [f_equal; [f_equal|]|].
      * unfold ENTRY_LEN. lia.
      * cbn [find]. unfold T_PLATFORM. destruct (e_type e =? 0), plat; reflexivity.
      * clear. revert lst e. induction es as [|y es IH]; intros lst e; [reflexivity|]. cbn [last] in *. destruct es; [reflexivity|]. apply IH.
      * cbn [existsb]. unfold T_EXTENSION. destruct (e_type e =? 1), fnd; reflexivity.
Qed.

Lemma hash_len_pos : forall ty hl, hash_len ty = Some hl -> 0 < hl.
Proof.
  intros ty hl H. unfold hash_len in H. destruct (ty =? 1); [injection H as <-; lia|]. destruct (ty =? 2); [injection H as <-; lia|].
  destruct (ty =? 3); [injection H as <-; lia|discriminate].
Qed.

(** The parts of an encoded table. *)
Definition enc_toc_header (t : toc) : list N := [N.of_nat (length (tc_entries t)); N.of_nat (length (tc_hashes t)); tc_type t; tc_reserved t].
Lemma enc_toc_parts : forall t, enc_toc t = enc_toc_header t ++ flat_map enc_entry (tc_entries t) ++ concat (tc_hashes t).
Proof. reflexivity. Qed.

Lemma sub32_fwd : forall a n, a + n < 2 ^ 32 -> sub32 (a + n) a = n.
Proof.
  intros a n H. unfold sub32. rewrite (N.mod_small a) by lia. replace (a + n + 2 ^ 32 - a) with (n + 1 * 2 ^ 32) by lia.
  rewrite N.mod_add by lia. apply N.mod_small. lia.
Qed.

Hypothesis Hsize : c_size c < 2 ^ 32.

Lemma ext_cond : forall allow ty hl off extra t, toc_ok allow ty hl off extra t ->
  forall j e, nth_error (tc_entries t) j = Some e -> e_type e = 1 -> allow = true /\ 0 + N.of_nat j = 254 /\ e_hash e < t_hashes (parse_toc (enc_toc_header t)).
Proof. intros allow ty hl off extra t K j e N0 T. destruct (tk_ext _ _ _ _ _ _ K j e N0 T) as (? & -> & ?). split; [auto|]. split; [reflexivity|auto]. Qed.

Lemma found_extension : forall allow ty hl off extra t d, toc_ok allow ty hl off extra t ->
  extension t = if existsb (fun e => e_type e =? 1) (tc_entries t) then Some (last (tc_entries t) d) else None.
Proof.
  intros allow ty hl off extra t d K. unfold extension. apply existsb_ext_last; [apply (tk_count _ _ _ _ _ _ K)|].
  intros j e N0 T. now destruct (tk_ext _ _ _ _ _ _ K j e N0 T) as (_ & ? & _).
Qed.

Lemma runs_more : forall ts fuel from r allow count pos acc rest,
  follow allow (r_type r) (r_hl r) pos (Some from) rest ts -> (length ts <= fuel)%nat ->
  c_addr c + pos + N.of_nat (length rest) <= c_size c -> holds m (c_addr c + pos) rest ->
  exists used tail, rest = used ++ tail /\ 
  runs (hash_range c rd (c_addr c + pos) (sub32 (c_addr c + e_offset from) (c_addr c + pos)) ;;;
        verify_tocs c rd fuel (c_addr c + e_offset from) (Some r) from allow count)
    acc (acc ++ used)
    (c_addr c + pos + N.of_nat (length used), count + N.of_nat (list_sum (map (fun x => length (tc_entries x)) ts)), r).
Proof.
  induction ts as [|t ts IH]; intros fuel from r allow count pos acc rest F FU S H; inversion F as [|? ? gap ? rest' ? G L K F']; subst.
  destruct fuel as [|f]; [cbn in FU; lia|]. cbn [length] in FU.
  rewrite enc_toc_parts in H, S. rewrite <- !app_assoc in H, S. apply holds_app in H. destruct H as (H1 & H).
  apply holds_app in H. destruct H as (H2 & H). apply holds_app in H. destruct H as (H3 & H). apply holds_app in H. destruct H as (H4 & H5).
  assert (LT: N.of_nat (length (enc_toc t)) = 4 + 8 * N.of_nat (length (tc_entries t)) + r_hl r * N.of_nat (length (tc_hashes t))).
  { rewrite (length_enc_toc t (r_hl r)) by apply (tk_hashes _ _ _ _ _ _ K). reflexivity. }
  pose proof LT as LT'. rewrite enc_toc_parts, !app_length, length_enc_entries in LT'. cbn [length enc_toc_header] in LT'.
  rewrite !app_length, length_enc_entries in S. cbn [length enc_toc_header] in S, H3, H4, H5. rewrite length_enc_entries in *.
  set (gl := N.of_nat (length gap)) in *.
  replace (c_addr c + pos + gl) with (c_addr c + e_offset from) in * by (subst gl; lia).
  (* the rest of the tables *)
  assert (NX: exists used tail, rest' = used ++ tail /\
    runs (if existsb (fun e => e_type e =? 1) (tc_entries t)
          then hash_range c rd (c_addr c + e_offset from + N.of_nat (length (enc_toc t))) (sub32 (c_addr c + e_offset (last (tc_entries t) no_entry)) (c_addr c + e_offset from + N.of_nat (length (enc_toc t)))) ;;;
               verify_tocs c rd f (c_addr c + e_offset (last (tc_entries t) no_entry)) (Some r) (last (tc_entries t) no_entry) allow (count + N.of_nat (length (tc_entries t)))
          else ret (c_addr c + e_offset from + N.of_nat (length (enc_toc t)), count + N.of_nat (length (tc_entries t)), r))
      ((acc ++ gap) ++ enc_toc t) (((acc ++ gap) ++ enc_toc t) ++ used)
      (c_addr c + e_offset from + N.of_nat (length (enc_toc t)) + N.of_nat (length used), count + N.of_nat (length (tc_entries t)) + N.of_nat (list_sum (map (fun x => length (tc_entries x)) ts)), r)).
  { pose proof (found_extension _ _ _ _ _ _ no_entry K) as FE. destruct (existsb _ (tc_entries t)).
    - rewrite FE in F'. destruct (IH f (last (tc_entries t) no_entry) r allow (count + N.of_nat (length (tc_entries t))) (e_offset from + N.of_nat (length (enc_toc t))) ((acc ++ gap) ++ enc_toc t) rest' F') as (used & tail & U1 & U2); [lia|lia| |].
      { replace (c_addr c + (e_offset from + N.of_nat (length (enc_toc t)))) with (c_addr c + e_offset from + N.of_nat 4 + N.of_nat (8 * length (tc_entries t)) + N.of_nat (length (concat (tc_hashes t)))) by lia. exact H5. }
      rewrite N.add_assoc in U2. exists used, tail. auto.
    - exists [], rest'. split; [reflexivity|]. rewrite FE in F'. inversion F'; subst. cbn [map list_sum fold_right length]. rewrite app_nil_r, !N.add_0_r. apply runs_ret. }
  destruct NX as (used & tail & -> & NX). exists (gap ++ enc_toc t ++ used), tail. split; [now rewrite <- !app_assoc|].
  rewrite app_length in S.
  eapply runs_bind. { apply runs_range; [|exact H1|lia]. replace (c_addr c + e_offset from) with (c_addr c + pos + gl) by (subst gl; lia). rewrite sub32_fwd; [reflexivity|lia]. }
  cbn [verify_tocs]. cbv zeta.
  eapply runs_bind. { exact (runs_read_hash _ (enc_toc_header t) (acc ++ gap) H2 ltac:(cbn [length enc_toc_header]; lia)). }
  unfold ENTRY_LEN, TOC_HEADER.
  assert (PT: t_entries (parse_toc (enc_toc_header t)) = N.of_nat (length (tc_entries t)) /\ t_hashes (parse_toc (enc_toc_header t)) = N.of_nat (length (tc_hashes t)) /\ t_type (parse_toc (enc_toc_header t)) = tc_type t) by (repeat split; reflexivity).
  destruct PT as (PT1 & PT2 & PT3). rewrite PT1, PT2, PT3.
  eapply runs_bind. { apply runs_check. destruct (tc_entries t) eqn:Q; [destruct (tk_some _ _ _ _ _ _ K Q)|]. reflexivity. }
  eapply runs_bind. { eapply runs_bind; [apply runs_check; unfold convert_type; rewrite (tk_type _ _ _ _ _ _ K); apply N.eqb_refl|].
    eapply runs_bind; [apply runs_check; unfold toc_length, TOC_HEADER, ENTRY_LEN; lia|]. apply runs_ret. }
  eapply runs_bind. { rewrite Nat2N.id. apply runs_entries; [exact H3|lia|apply (tk_fits _ _ _ _ _ _ K)| |exact (ext_cond _ _ _ _ _ _ K)].
    replace (c_addr c + e_offset from + 4 - c_addr c + N.of_nat (length (tc_entries t)) * 8 + N.of_nat (length (tc_hashes t)) * r_hl r + 0)
      with (e_offset from + N.of_nat (length (enc_toc t)) + 0) by lia. apply (tk_order _ _ _ _ _ _ K). }
  cbv beta iota.
  eapply runs_bind. { apply (runs_range _ (concat (tc_hashes t))); [lia| |lia].
    replace (c_addr c + e_offset from + 4 + 8 * N.of_nat (length (tc_entries t))) with (c_addr c + e_offset from + N.of_nat 4 + N.of_nat (8 * length (tc_entries t))) by lia. exact H4. }
  eapply runs_bind; [apply runs_ret|]. cbv beta iota. rewrite orb_false_l.
  replace ((((acc ++ gap) ++ enc_toc_header t) ++ flat_map enc_entry (tc_entries t)) ++ concat (tc_hashes t)) with ((acc ++ gap) ++ enc_toc t) by (now rewrite enc_toc_parts, <- !app_assoc).
  replace (c_addr c + e_offset from + 4 + 8 * N.of_nat (length (tc_entries t)) + r_hl r * N.of_nat (length (tc_hashes t))) with (c_addr c + e_offset from + N.of_nat (length (enc_toc t))) by lia.
  replace (acc ++ gap ++ enc_toc t ++ used) with (((acc ++ gap) ++ enc_toc t) ++ used) by (now rewrite <- !app_assoc).
  match goal with |- runs _ _ _ ?y => match type of NX with runs _ _ _ ?z => replace y with z; [exact NX|] end end.
  f_equal. f_equal; [rewrite !app_length; subst gl; lia|]. unfold list_sum. cbn [map fold_right]. lia.
Qed.

Lemma runs_tocs : forall allow D h ty hl t rh id ts fuel, layout allow D h ty hl t rh id ts -> (length ts < fuel)%nat ->
  c_addr c + N.of_nat (length D) <= c_size c -> holds m (c_addr c) D -> N.of_nat (length id) <= c_max_id c ->
  exists r used tail, D = enc_header h r ++ used ++ tail /\
    runs (verify_tocs c rd fuel (c_addr c + 12) None no_entry allow 0) (enc_header h r) (enc_header h r ++ used)
      (c_addr c + 12 + N.of_nat (length used), N.of_nat (entries_of t ts), Root ty hl rh id).
Proof.
  intros allow D h ty hl t rh id ts fuel [LB LF (LH & LR) K] FU S H MX. destruct LB as (r & gap & p & pa & pb & pd & rest & -> & P & G & F).
  destruct fuel as [|f]; [lia|].
  apply holds_app in H. destruct H as (H0 & H). rewrite length_enc_header in H. rewrite enc_toc_parts in H, S. rewrite <- !app_assoc in H, S.
  apply holds_app in H. destruct H as (H2 & H). apply holds_app in H. destruct H as (H3 & H). apply holds_app in H. destruct H as (H4 & H).
  apply holds_app in H. destruct H as (H5 & H). apply holds_app in H. destruct H as (H6 & H). apply holds_app in H. destruct H as (H7 & H). apply holds_app in H. destruct H as (H8 & H9).
  assert (LT: N.of_nat (length (enc_toc t)) = 4 + 8 * N.of_nat (length (tc_entries t)) + hl * N.of_nat (length (tc_hashes t))).
  { rewrite (length_enc_toc t hl) by apply (tk_hashes _ _ _ _ _ _ K). reflexivity. }
  pose proof LT as LT'. rewrite enc_toc_parts, !app_length, length_enc_entries in LT'. cbn [length enc_toc_header] in LT'.
  rewrite !app_length, length_enc_entries, length_enc_header in S. cbn [length enc_toc_header] in S, H3, H4, H5, H6, H7, H8, H9. rewrite length_enc_entries in *.
  set (a := c_addr c) in *. change (N.of_nat 12) with 12 in *. change (N.of_nat 4) with 4 in *.
  set (ph := [N.of_nat (length id); pa; pb; pd]) in *.
  set (body := enc_toc t ++ rh ++ gap ++ ph ++ id).
  assert (LBD: N.of_nat (length body) = e_offset p + 4 + N.of_nat (length id) - 12 /\ 12 <= e_offset p).
  { unfold body, ph. rewrite !app_length. cbn [length]. lia. }
  destruct LBD as (LBD & PO).
  replace (a + 12 + 4 + N.of_nat (8 * length (tc_entries t))) with (a + 12 + 4 + 8 * N.of_nat (length (tc_entries t))) in * by lia.
  replace (a + 12 + 4 + 8 * N.of_nat (length (tc_entries t)) + N.of_nat (length (concat (tc_hashes t)))) with (a + 12 + N.of_nat (length (enc_toc t))) in * by lia.
  rewrite LR in *.
  replace (a + 12 + N.of_nat (length (enc_toc t)) + hl + N.of_nat (length gap)) with (a + e_offset p) in * by lia.
  assert (NX: exists used tail, rest = used ++ tail /\
    runs (if existsb (fun e => e_type e =? 1) (tc_entries t)
          then hash_range c rd (a + e_offset p + 4 + N.of_nat (length id)) (sub32 (a + e_offset (last (tc_entries t) no_entry)) (a + e_offset p + 4 + N.of_nat (length id))) ;;;
               verify_tocs c rd f (a + e_offset (last (tc_entries t) no_entry)) (Some (Root ty hl rh id)) (last (tc_entries t) no_entry) allow (0 + N.of_nat (length (tc_entries t)))
          else ret (a + e_offset p + 4 + N.of_nat (length id), 0 + N.of_nat (length (tc_entries t)), Root ty hl rh id))
      (enc_header h r ++ body) ((enc_header h r ++ body) ++ used)
      (a + e_offset p + 4 + N.of_nat (length id) + N.of_nat (length used), 0 + N.of_nat (length (tc_entries t)) + N.of_nat (list_sum (map (fun x => length (tc_entries x)) ts)), Root ty hl rh id)).
  { pose proof (found_extension _ _ _ _ _ _ no_entry K) as FE. destruct (existsb _ (tc_entries t)).
    - rewrite FE in F. destruct (runs_more ts f (last (tc_entries t) no_entry) (Root ty hl rh id) allow (0 + N.of_nat (length (tc_entries t))) (e_offset p + 4 + N.of_nat (length id)) (enc_header h r ++ body) rest F) as (used & tail & U1 & U2); [lia|fold a; lia| |].
      { fold a. rewrite !N.add_assoc. exact H9. }
      fold a in U2. rewrite !N.add_assoc in U2. exists used, tail. auto.
    - exists [], rest. split; [reflexivity|]. rewrite FE in F. inversion F; subst. cbn [map list_sum fold_right length]. rewrite app_nil_r, !N.add_0_r. apply runs_ret. }
  destruct NX as (used & tail & -> & NX). rewrite app_length in S.
  exists r, (body ++ used), tail. split; [unfold body, ph; now rewrite <- !app_assoc|].
  assert (HP: 0 < hl) by (eapply hash_len_pos; eauto).
  cbn [verify_tocs]. cbv zeta. fold a.
  eapply runs_bind. { exact (runs_read_hash _ (enc_toc_header t) (enc_header h r) H2 ltac:(cbn [length enc_toc_header]; lia)). }
  unfold ENTRY_LEN, TOC_HEADER.
  assert (PT: t_entries (parse_toc (enc_toc_header t)) = N.of_nat (length (tc_entries t)) /\ t_hashes (parse_toc (enc_toc_header t)) = N.of_nat (length (tc_hashes t)) /\ t_type (parse_toc (enc_toc_header t)) = tc_type t) by (repeat split; reflexivity).
  destruct PT as (PT1 & PT2 & PT3). rewrite PT1, PT2, PT3.
  eapply runs_bind. { apply runs_check. destruct (tc_entries t) eqn:Q; [destruct (tk_some _ _ _ _ _ _ K Q)|]. reflexivity. }
  replace (convert_type (tc_type t)) with ty by (symmetry; apply (tk_type _ _ _ _ _ _ K)). rewrite LH.
  eapply runs_bind; [apply runs_ret|].
  eapply runs_bind. { rewrite Nat2N.id. apply runs_entries; [exact H3|lia|apply (tk_fits _ _ _ _ _ _ K)| |exact (ext_cond _ _ _ _ _ _ K)].
    replace (a + 12 + 4 - a + N.of_nat (length (tc_entries t)) * 8 + N.of_nat (length (tc_hashes t)) * hl + hl)
      with (12 + N.of_nat (length (enc_toc t)) + hl) by lia. apply (tk_order _ _ _ _ _ _ K). }
  cbv beta iota.
  eapply runs_bind. { apply (runs_range _ (concat (tc_hashes t))); [lia|exact H4|lia]. }
  replace (a + 12 + 4 + 8 * N.of_nat (length (tc_entries t)) + hl * N.of_nat (length (tc_hashes t))) with (a + 12 + N.of_nat (length (enc_toc t))) by lia.
  fold (platform_entry t). rewrite P.
  eapply runs_bind. {
    eapply runs_bind. { rewrite <- LR. apply runs_read_hash; [exact H5|lia]. }
    eapply runs_bind. { apply (runs_range _ gap); [|exact H6|lia].
      replace (a + e_offset p) with (a + 12 + N.of_nat (length (enc_toc t)) + hl + N.of_nat (length gap)) by lia. apply sub32_fwd. lia. }
    eapply runs_bind. { apply (runs_read_hash _ ph); [exact H7|unfold ph; cbn [length]; lia]. }
    replace (u8 ph 0) with (N.of_nat (length id)) by reflexivity.
    eapply runs_bind; [apply runs_check; lia|].
    eapply runs_bind. { apply (runs_read_hash _ id); [exact H8|lia]. }
    apply runs_ret. }
  cbv beta iota. rewrite orb_false_l.
  replace (((((((enc_header h r ++ enc_toc_header t) ++ flat_map enc_entry (tc_entries t)) ++ concat (tc_hashes t)) ++ rh) ++ gap) ++ ph) ++ id) with (enc_header h r ++ body)
    by (unfold body; now rewrite enc_toc_parts, <- !app_assoc).
  rewrite app_assoc.
  match goal with |- runs _ _ _ ?y => match type of NX with runs _ _ _ ?z => replace y with z; [exact NX|] end end.
  f_equal. f_equal; [rewrite app_length; lia|]. unfold entries_of. lia.
Qed.

Variable eng : nat -> bool.
Hypothesis Heng : forall k, eng k = true.
Lemma runs_engine : forall a, runs (engine eng) a a tt.
Proof. intros a k. exists (S k). unfold engine. cbn [fst snd]. now rewrite Heng. Qed.
Lemma runs_start : forall a, runs (start_hash eng) a [] tt.
Proof. intros a. unfold start_hash. eapply runs_bind; [apply runs_engine|]. intros k. now exists k. Qed.

Lemma runs_verify : forall hash sig_ok D h ty hl t rh id ts sig s0 acc,
  layout (h_magic h =? c_v3 c) D h ty hl t rh id ts -> (h_magic h = c_v2 c \/ h_magic h = c_v3 c) -> h_magic h <> 65535 -> h_magic h <> c_v1 c ->
  N.of_nat (length D) + h_sig h = h_length h -> N.of_nat (length sig) = h_sig h -> 0 < h_sig h <= c_max_sig c ->
  hash_len (N.land (h_sigtype h) 7 + 1) <> None -> N.of_nat (length id) <= c_max_id c ->
  c_addr c + h_length h <= c_size c -> holds m (c_addr c) (D ++ sig) -> sig_ok (hash (N.land (h_sigtype h) 7 + 1) D) sig = true ->
  exists acc', runs (verify hash sig_ok c rd eng s0) acc acc'
    (MState h (N.of_nat (entries_of t ts)) rh ty hl (Some (hash (N.land (h_sigtype h) 7 + 1) D)) true (h_magic h =? c_v3 c) sig id).
Proof.
  intros hash sig_ok D h ty hl t rh id ts sig s0 acc L MG NS NV LD LS HS HL HI SZ HD SG.
  assert (HH := HD). apply holds_app in HH. destruct HH as (HH & HSIG).
  assert (TS: (length ts < TABLES)%nat).
  { destruct L as [(r & gap & p & pa & pb & pd & rest & DD & P & G & F) _ _ K]. destruct (extension t) as [x|] eqn:E.
    - destruct (extension_full _ _ _ _ _ _ _ K E) as (_ & _ & _ & _ & O & S0 & _). pose proof (follow_short _ _ _ _ _ _ _ F x eq_refl S0). unfold TABLES. lia.
    - inversion F; subst. unfold TABLES. cbn. lia. }
  destruct (runs_tocs _ _ _ _ _ _ _ _ _ _ L TS ltac:(lia) HH HI) as (r & used & tail & DE & RT).
  pose proof (ly_fits _ _ _ _ _ _ _ _ _ L) as HF.
  assert (HH2 := HH). rewrite DE in HH2. apply holds_app in HH2. destruct HH2 as (HA & HB). rewrite length_enc_header in HB. apply holds_app in HB. destruct HB as (HB & HC).
  assert (LL: length D = (12 + length used + length tail)%nat) by (rewrite DE, !app_length, length_enc_header; lia).
  unfold verify. cbv zeta. eexists.
  eapply runs_bind. { unfold read_header. cbv zeta. eapply runs_bind. { change HEADER_LEN with (N.of_nat (length (enc_header h r))). apply runs_read; [exact HA|rewrite length_enc_header; lia]. }
    rewrite parse_enc_header by auto. unfold NOT_SUPPORTED. eapply runs_bind; [apply runs_check; lia|]. unfold HEADER_LEN.
    eapply runs_bind; [apply runs_check; lia|]. eapply runs_bind; [apply runs_check; lia|]. apply runs_ret. }
  cbv beta iota. eapply runs_bind; [apply runs_check; lia|].
  eapply runs_bind. { apply runs_check. unfold convert_type. destruct (hash_len _); [reflexivity|congruence]. }
  destruct (N.eqb_spec (h_sig h) 0); [lia|].
  eapply runs_bind. { rewrite <- LS. apply runs_read; [|lia]. replace (c_addr c + h_length h - N.of_nat (length sig)) with (c_addr c + N.of_nat (length D)) by lia. exact HSIG. }
  replace (negb (c_v1 c =? NOT_SUPPORTED) && (h_magic h =? c_v1 c)) with false by (destruct (N.eqb_spec (h_magic h) (c_v1 c)); [contradiction|now rewrite andb_false_r]).
  eapply runs_bind; [apply runs_start|].
  eapply runs_bind; [apply runs_update|]. rewrite app_nil_l.
  eapply runs_bind. { unfold HEADER_LEN. exact RT. }
  cbv beta iota.
  eapply runs_bind. { apply (runs_range _ tail); [|exact HC|lia].
    replace (c_addr c + h_length h - h_sig h) with (c_addr c + 12 + N.of_nat (length used) + N.of_nat (length tail)) by lia. apply sub32_fwd. lia. }
  replace ((enc_header h r ++ used) ++ tail) with D by (rewrite DE; now rewrite <- app_assoc).
  eapply runs_bind. { unfold verify_signature. eapply runs_bind; [apply runs_check; lia|]. eapply runs_bind; [apply runs_engine|].
    eapply runs_bind; [apply runs_hashed|]. eapply runs_bind; [apply runs_engine|].
    eapply runs_bind; [apply runs_check; exact SG|]. apply runs_ret. }
  apply runs_ret.
Qed.
End Accepts.
