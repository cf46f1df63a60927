(** * C80: a device goes to RMA only with a token for it. *)
From Coq Require Import List NArith Lia Bool Arith ZArith ZifyBool ZifyNat ZifyN.
From Verif Require Import Base BufferUtil_Model BufferUtil_Proofs Der_Model Der_Spec Der_Asn1_Proofs Der_Properties SpdmSession_Wire_Proofs
  Rma_Model Rma_Spec.
Import ListNotations.

Lemma le_value_inj : forall a b, length a = length b -> bytes_ok a -> bytes_ok b -> le_value a = le_value b -> a = b.
Proof.
  induction a as [|x a IH]; intros [|y b] L A B V; try discriminate; auto.
  inversion A; inversion B; subst. unfold byte_ok in *. cbn [le_value length] in *. f_equal; [lia|]. apply IH; auto; lia.
Qed.

Lemma bytes_forall : forall l, bytes_ok l -> Forall (fun x => x < 2 ^ 8)%N l.
Proof. intros l H. exact H. Qed.

Lemma compare_eq : forall a b n, bytes_ok a -> bytes_ok b -> n = length a -> n <= length b ->
  compare a b n = true <-> firstn n b = a.
Proof.
  intros a b n A B -> L. unfold compare.
  rewrite (buffer_compare_correct 8 a b (length a) (bytes_forall _ A) (bytes_forall _ B) (Nat.le_refl _) L), firstn_all. split; auto.
Qed.

Lemma padded_buffer : forall u p, length u <= 16 -> (padded u p <-> p = uuid_buffer u).
Proof.
  intros u p L. unfold padded, uuid_buffer, UUID_LEN. rewrite firstn_app, firstn_all2 by lia.
  assert (F : forall n m, n <= m -> firstn n (repeat 0%N m) = repeat 0%N n).
  { induction n; intros [|m] Q; auto; try lia. cbn [firstn repeat]. f_equal. apply IHn. lia. }
  rewrite F by lia. split.
  - intros (Lp & z & Z & ->). f_equal. rewrite app_length in Lp. assert (E : length z = 16 - length u) by lia. rewrite <- E. clear - Z.
    induction Z as [|? ? <-]; auto. cbn [length repeat]. now f_equal.
  - intros ->. split; [rewrite app_length, repeat_length; lia|]. exists (repeat 0%N (16 - length u)). split; auto.
    apply Forall_forall. intros x X. now apply repeat_spec in X.
Qed.

Lemma bytes_uuid : forall u, bytes_ok u -> bytes_ok (uuid_buffer u).
Proof.
  intros u B. unfold uuid_buffer. apply Forall_firstn. apply Forall_app. split; auto. apply Forall_forall. intros x X. apply repeat_spec in X. subst. reflexivity.
Qed.

(** A field is the next part of the token. *)
Lemma field_step : forall a rest n right wrong k o, o = length a ->
  field (a ++ rest) o n right wrong k =
    if length rest <? n then inr RBad else if right (firstn n rest) then k (length (a ++ firstn n rest)) else inr wrong.
Proof.
  intros a rest n right wrong k o ->. unfold field, piece. rewrite !app_length.
  destruct (length rest <? n) eqn:B; [replace (_ <? _) with true by lia; reflexivity|].
  replace (length a + length rest <? length a + n) with false by lia. replace (_ <=? _) with true by lia.
  unfold window. rewrite skipn_app, skipn_all2, Nat.sub_diag by lia. cbn [app skipn]. rewrite firstn_length.
  replace (Nat.min n (length rest)) with n by lia. reflexivity.
Qed.

Definition fields (h : handler) (u data : list N) (o : nat) : nat + status :=
  field data o 2 (fun d => le_value d =? FORMAT)%N RBad (fun o =>
  field data o 4 (fun d => le_value d =? MAGIC)%N RBad (fun o =>
  field data o UUID_LEN (fun d => compare (uuid_buffer u) d UUID_LEN) RMismatch (fun o =>
  field data o (length (h_dice h)) (fun d => compare (h_dice h) d (length (h_dice h))) RMismatch (fun o => inl o)))).

Definition tail_of (h : handler) (u r : list N) : list N := le16 1 ++ le32 0x52545354 ++ uuid_buffer u ++ h_dice h ++ r.

Lemma length_uuid : forall u, length (uuid_buffer u) = 16.
Proof. intros u. unfold uuid_buffer, UUID_LEN. rewrite firstn_length, app_length, repeat_length. lia. Qed.

Lemma fields_spec : forall h u a rest, bytes_ok u -> bytes_ok (h_dice h) -> bytes_ok rest ->
  (exists r, rest = tail_of h u r /\ fields h u (a ++ rest) (length a) = inl (length a + (22 + length (h_dice h)))) \/
  (fields h u (a ++ rest) (length a) = inr RBad \/ fields h u (a ++ rest) (length a) = inr RMismatch) /\ forall r, rest <> tail_of h u r.
Proof.
  intros h u a rest BU BD BR. unfold fields, tail_of. pose proof (length_uuid u) as LU. pose proof (bytes_uuid u BU) as BUU.
  assert (cut : forall n (l : list N), n <= length l -> bytes_ok l -> length (firstn n l) = n /\ bytes_ok (firstn n l) /\ bytes_ok (skipn n l) /\ length (skipn n l) = length l - n).
  { intros n l L B. rewrite firstn_length, skipn_length. repeat split; try lia; [now apply Forall_firstn|].
    rewrite <- (firstn_skipn n l) in B. apply Forall_app in B. tauto. }
  assert (short : forall n (x y : list N), length x = n -> firstn n (x ++ y) = x /\ skipn n (x ++ y) = y).
  { intros n x y <-. rewrite firstn_app, skipn_app, Nat.sub_diag, firstn_all, skipn_all, firstn_O, app_nil_r. auto. }
  rewrite field_step by reflexivity.
  destruct (length rest <? 2) eqn:B1.
  { right. split; auto. intros r ->. rewrite app_length in B1. cbn in B1. lia. }
  destruct (cut 2 rest ltac:(lia) BR) as (L1 & K1 & BR1 & LR1).
  destruct (_ =? FORMAT)%N eqn:V1.
  2:{ right. split; auto. intros r ->. destruct (short 2 (le16 1) (le32 0x52545354 ++ uuid_buffer u ++ h_dice h ++ r) eq_refl) as (X & _). rewrite X in V1. discriminate. }
  assert (E1 : firstn 2 rest = le16 1).
  { apply le_value_inj; auto; [repeat constructor|]. apply N.eqb_eq in V1. rewrite V1. reflexivity. }
  assert (D1 : rest = le16 1 ++ skipn 2 rest) by (rewrite <- E1; symmetry; apply firstn_skipn).
  remember (skipn 2 rest) as rest1. assert (A1 : a ++ rest = (a ++ le16 1) ++ rest1) by (rewrite D1; apply app_assoc). rewrite A1, E1. rewrite field_step by reflexivity.
  destruct (length rest1 <? 4) eqn:B2.
  { right. split; auto. intros r Q. rewrite D1 in Q. apply app_inv_head in Q. rewrite Q in B2. rewrite app_length in B2. cbn [le32 length] in B2. lia. }
  destruct (cut 4 rest1 ltac:(lia) BR1) as (L2 & K2 & BR2 & LR2).
  destruct (_ =? MAGIC)%N eqn:V2.
  2:{ right. split; auto. intros r Q. rewrite D1 in Q. apply app_inv_head in Q. rewrite Q in V2.
      destruct (short 4 (le32 0x52545354) (uuid_buffer u ++ h_dice h ++ r) eq_refl) as (X & _). rewrite X in V2. discriminate. }
  assert (E2 : firstn 4 rest1 = le32 0x52545354).
  { apply le_value_inj; auto; [repeat constructor|]. apply N.eqb_eq in V2. rewrite V2. reflexivity. }
  assert (D2 : rest1 = le32 0x52545354 ++ skipn 4 rest1) by (rewrite <- E2; symmetry; apply firstn_skipn).
  remember (skipn 4 rest1) as rest2. assert (A2 : (a ++ le16 1) ++ rest1 = ((a ++ le16 1) ++ le32 0x52545354) ++ rest2) by (rewrite D2; apply app_assoc). rewrite A2, E2. rewrite field_step by reflexivity.
  unfold UUID_LEN in *.
  destruct (length rest2 <? 16) eqn:B3.
  { right. split; auto. intros r Q. rewrite D1, D2 in Q. apply app_inv_head in Q. apply app_inv_head in Q. rewrite Q in B3. rewrite app_length in B3. lia. }
  destruct (cut 16 rest2 ltac:(lia) BR2) as (L3 & K3 & BR3 & LR3).
  assert (C3 : compare (uuid_buffer u) (firstn 16 rest2) 16 = true <-> firstn 16 rest2 = uuid_buffer u).
  { rewrite compare_eq; auto; [|lia]. now rewrite firstn_all2 by lia. }
  destruct (compare (uuid_buffer u) (firstn 16 rest2) 16).
  2:{ right. split; auto. intros r Q. rewrite D1, D2 in Q. apply app_inv_head in Q. apply app_inv_head in Q.
      enough (false = true) by discriminate. apply C3. rewrite Q. now apply short. }
  pose proof (proj1 C3 eq_refl) as E3. clear C3.
  assert (D3 : rest2 = uuid_buffer u ++ skipn 16 rest2) by (rewrite <- E3; symmetry; apply firstn_skipn).
  remember (skipn 16 rest2) as rest3. assert (A3 : ((a ++ le16 1) ++ le32 0x52545354) ++ rest2 = (((a ++ le16 1) ++ le32 0x52545354) ++ uuid_buffer u) ++ rest3) by (rewrite D3; apply app_assoc). rewrite A3, E3. rewrite field_step by reflexivity.
  destruct (length rest3 <? length (h_dice h)) eqn:B4.
  { right. split; auto. intros r Q. rewrite D1, D2, D3 in Q. do 3 apply app_inv_head in Q. rewrite Q in B4. rewrite app_length in B4. lia. }
  destruct (cut (length (h_dice h)) rest3 ltac:(lia) BR3) as (L4 & K4 & BR4 & LR4).
  assert (C4 : compare (h_dice h) (firstn (length (h_dice h)) rest3) (length (h_dice h)) = true <-> firstn (length (h_dice h)) rest3 = h_dice h).
  { rewrite compare_eq; auto; [|lia]. now rewrite firstn_all2 by lia. }
  destruct (compare (h_dice h) _ _).
  2:{ right. split; auto. intros r Q. rewrite D1, D2, D3 in Q. do 3 apply app_inv_head in Q.
      enough (false = true) by discriminate. apply C4. rewrite Q. now apply short. }
  pose proof (proj1 C4 eq_refl) as E4. left. exists (skipn (length (h_dice h)) rest3). split.
  - rewrite <- E4 at 1. rewrite firstn_skipn, <- D3, <- D2. exact D1.
  - f_equal. rewrite !app_length, LU, L4. cbn [le16 le32 length]. lia.
Qed.

Definition device_ok (SIZE : N) (h : handler) (u : list N) : Prop :=
  bytes_ok (h_oid h) /\ bytes_ok (h_dice h) /\ bytes_ok u /\ length u <= 16 /\ (N.of_nat (length (h_oid h)) < 2 ^ 31)%N.

Lemma validate_spec : forall SIZE h e u data, (2 ^ 32 <= SIZE)%N -> device_ok SIZE h u -> e_uuid e = Some u ->
  bytes_ok data -> (N.of_nat (length data) < SIZE / 2)%N ->
  (exists text r, data = text ++ r /\ token_text (h_oid h) u (h_dice h) text /\ validate SIZE h e data = inl (length text)) \/
  (validate SIZE h e data = inr RBad \/ validate SIZE h e data = inr RMismatch) /\
  (forall text r, token_text (h_oid h) u (h_dice h) text -> data <> text ++ r).
Proof.
  intros SIZE h e u data W (BO & BD & BU & LU & LO) EU B SZ. unfold validate. rewrite EU.
  assert (HALF : (SIZE / 2 <= SIZE - 6)%N) by (clear - W; zify; Z.to_euclidean_division_equations; lia).
  assert (HALF2 : (2 ^ 31 <= SIZE / 2)%N) by (clear - W; change (2 ^ 31)%N with (2 ^ 32 / 2)%N; apply N.div_le_mono; lia).
  assert (NOT : (forall c e rest, item 6 c e -> data = e ++ rest -> c <> h_oid h) ->
    forall text r, token_text (h_oid h) u (h_dice h) text -> data <> text ++ r).
  { intros N text r (e0 & p & IT & _ & ->) ->. rewrite <- app_assoc in N. exact (N _ _ _ IT eq_refl eq_refl). }
  assert (RUN : forall e rest, item 6 (h_oid h) e -> data = e ++ rest -> decode_oid SIZE data = Ret (h_oid h ++ rest, N.of_nat (length (h_oid h)))).
  { intros e0 rest IT ->. now apply C57_decode_oid_all. }
  destruct (decode_oid SIZE data) as [[body n]| |] eqn:D.
  2:{ right. split; auto. apply NOT. intros c e0 rest IT E ->. specialize (RUN _ _ IT E). discriminate. }
  2:{ exfalso. unfold decode_oid in D. destruct (get_item_spec SIZE 6 data B) as [X|(f & m & body' & _ & _ & _ & G & X)]; rewrite D in X; [discriminate|].
      discriminate. }
  destruct (N.of_nat (length (h_oid h)) =? n)%N eqn:Q; cbn [negb].
  2:{ right. split; auto. apply NOT. intros c e0 rest IT E ->. specialize (RUN _ _ IT E). assert (n = N.of_nat (length (h_oid h))) by congruence. lia. }
  apply N.eqb_eq in Q. subst n. rewrite Nat2N.id.
  destruct (get_item_fits SIZE W 6 data body _ B SZ D) as (f & ED & L5 & [(F & BB)|(BB & F)]); [|lia].
  replace (length body <? length (h_oid h)) with false by lia.
  assert (Bb : bytes_ok body). { rewrite ED in B. inversion B; subst. apply Forall_app in H2. tauto. }
  pose proof (compare_eq (h_oid h) body (length (h_oid h)) BO Bb eq_refl ltac:(lia)) as C.
  destruct (compare (h_oid h) body (length (h_oid h))); cbn [negb].
  2:{ right. split; auto. apply NOT. intros c e0 rest IT E ->. specialize (RUN _ _ IT E). enough (false = true) by discriminate. apply C.
      assert (body = h_oid h ++ rest) as -> by congruence. rewrite firstn_app, firstn_all, Nat.sub_diag. cbn. apply app_nil_r. }
  pose proof (proj1 C eq_refl) as EO. clear C.
  set (rest := skipn (length (h_oid h)) body). assert (EB : body = h_oid h ++ rest) by (rewrite <- EO at 1; symmetry; apply firstn_skipn).
  set (e0 := 6%N :: f ++ h_oid h). assert (ED' : data = e0 ++ rest). { rewrite ED, EB. unfold e0. cbn [app]. now rewrite <- app_assoc. }
  assert (IT : item 6 (h_oid h) e0) by (exists f; auto).
  replace (length data - length body + length (h_oid h)) with (length e0).
  2:{ rewrite ED', EB, !app_length. unfold e0. cbn [length]. rewrite app_length. lia. }
  assert (Br : bytes_ok rest). { rewrite ED' in B. apply Forall_app in B. tauto. }
  cbv zeta. fold (fields h u data (length e0)).
  pose proof (fields_spec h u e0 rest BU BD Br) as FS. rewrite <- ED' in FS. destruct FS as [(r & ER & ->)|(ST & NR)].
  - left. exists (e0 ++ le16 1 ++ le32 0x52545354 ++ uuid_buffer u ++ h_dice h), r. split; [|split].
    + rewrite ED', ER. unfold tail_of. rewrite <- !app_assoc. reflexivity.
    + exists e0, (uuid_buffer u). split; auto. split; auto. now apply padded_buffer.
    + f_equal. rewrite !app_length, length_uuid. cbn [le16 le32 length]. lia.
  - right. split; auto. intros text r (e1 & p & IT1 & P & ->) E. apply padded_buffer in P; auto. subst p.
    assert (R : decode_oid SIZE data = Ret (h_oid h ++ (le16 1 ++ le32 0x52545354 ++ uuid_buffer u ++ h_dice h) ++ r, N.of_nat (length (h_oid h)))).
    { rewrite E. rewrite <- !app_assoc. rewrite (C57_decode_oid_all SIZE _ _ _ W IT1 LO). reflexivity. }
    rewrite D in R. assert (BE : body = h_oid h ++ (le16 1 ++ le32 0x52545354 ++ uuid_buffer u ++ h_dice h) ++ r) by congruence.
    rewrite EB in BE. apply app_inv_head in BE. apply (NR r). rewrite BE. unfold tail_of. now rewrite <- !app_assoc.
Qed.

(** Whatever token is sent and whatever goes wrong: the transition to RMA is
    started only by a token for this device, with a signature of the authority
    if tokens are signed, and at most once.  Nothing outside of the token is
    read. *)
Theorem C80_only : forall SIZE hash h e u data, (2 ^ 32 <= SIZE)%N -> device_ok SIZE h u -> e_uuid e = Some u ->
  bytes_ok data -> (N.of_nat (length data) < SIZE / 2)%N ->
  let '(s, t) := execute SIZE hash h e data in
  s <> ROver /\
  (s = ROk -> In Transition t) /\
  (In Transition t -> good_token hash (e_verify e) (h_oid h) u (h_dice h) (h_key h) data /\
                      (s = ROk <-> e_transition e = true) /\ exists t', t = t' ++ [Transition] /\ ~ In Transition t').
Proof.
  intros SIZE hash h e u data W DO EU B SZ.
  assert (NT : ~ In Transition (snd (authenticate SIZE hash h e data))).
  { unfold authenticate. destruct (validate SIZE h e data); [|intros []]. destruct (h_key h); [|intros []].
    destruct (piece data 0 n); [|intros []]. destruct (piece data n _); [|intros []]. unfold verify_message, verify_digest.
    destruct (length l1 =? 0); [intros []|]. destruct (e_start e); cbn [negb]; [|intros []].
    destruct (e_update e); cbn [negb]; [|cbn; intuition discriminate]. destruct (e_finish e); cbn [negb]; [|cbn; intuition discriminate].
    destruct (length l =? 0); [cbn; intuition discriminate|]. destruct (e_set_key e); cbn; intuition discriminate. }
  assert (A : fst (authenticate SIZE hash h e data) <> ROver /\
    (fst (authenticate SIZE hash h e data) = ROk -> good_token hash (e_verify e) (h_oid h) u (h_dice h) (h_key h) data)).
  { clear NT. unfold authenticate. destruct (validate_spec SIZE h e u data W DO EU B SZ) as [(text & r & -> & T & ->)|([V|V] & _)]; [|rewrite V; cbn; split; discriminate..].
    unfold good_token. destruct (h_key h) as [key|].
    - unfold piece. rewrite app_length. replace (0 + length text <=? _) with true by lia. replace (_ <=? _) with true by lia.
      replace (length text + length r - length text) with (length r) by lia.
      pose proof (window_at [] text r) as W1. cbn [length app] in W1. rewrite (W1 0 (length text) eq_refl eq_refl).
      pose proof (window_at text r []) as W2. rewrite app_nil_r in W2. rewrite (W2 (length text) (length r) eq_refl eq_refl).
      destruct (verify_message hash e key text r) as [x t] eqn:VM. cbn [fst]. split; [destruct x; discriminate|]. destruct x; [|discriminate]. intros _.
      unfold verify_message, verify_digest in VM. destruct (length r =? 0) eqn:L; [discriminate|]. destruct (negb (e_start e)); [discriminate|].
      destruct (negb (e_update e)); [discriminate|]. destruct (negb (e_finish e)); [discriminate|]. destruct (length key =? 0) eqn:LK; [discriminate|].
      destruct (negb (e_set_key e)); [discriminate|]. exists text, r. split; auto. split; auto.
      split; [intros ->; discriminate|]. split; [intros ->; discriminate|]. congruence.
    - cbn [fst]. rewrite app_length. destruct (_ =? _) eqn:L; split; try discriminate. intros _. exists text, r. split; auto. split; auto.
      destruct r; auto. cbn [length] in L. lia. }
  unfold execute. destruct (authenticate SIZE hash h e data) as [s t]. cbn [fst snd] in *. destruct A as (A1 & A2).
  destruct s; try (split; [congruence|split; [discriminate|intros X; now elim NT]]).
  split; [destruct (e_transition e); discriminate|]. split; [intros _; apply in_or_app; right; now left|]. intros _.
  split; [auto|]. split; [destruct (e_transition e); split; congruence|]. eauto.
Qed.
Print Assumptions C80_only.

(** A good token works unless something external fails. *)
Theorem C80_works : forall SIZE hash h e u data, (2 ^ 32 <= SIZE)%N -> device_ok SIZE h u -> e_uuid e = Some u ->
  bytes_ok data -> (N.of_nat (length data) < SIZE / 2)%N ->
  e_start e = true -> e_update e = true -> e_finish e = true -> e_set_key e = true ->
  good_token hash (e_verify e) (h_oid h) u (h_dice h) (h_key h) data ->
  fst (validate_data SIZE hash h e data) = ROk /\
  fst (execute SIZE hash h e data) = (if e_transition e then ROk else RTransition) /\ In Transition (snd (execute SIZE hash h e data)).
Proof.
  intros SIZE hash h e u data W DO EU B SZ E1 E2 E3 E4 (text & r & T & -> & SG).
  assert (A : exists t, authenticate SIZE hash h e (text ++ r) = (ROk, t)).
  { unfold authenticate. destruct (validate_spec SIZE h e u _ W DO EU B SZ) as [(text' & r' & E & T' & V)|(_ & X)]; [|elim (X text r T); reflexivity].
    rewrite V.
    assert (text' = text /\ r' = r) as (-> & ->).
    { destruct T as (i1 & p1 & I1 & P1 & ->). destruct T' as (i2 & p2 & I2 & P2 & ->).
      destruct DO as (BO & BD & BU & LU & LO). apply padded_buffer in P1, P2; auto. subst p1 p2.
      pose proof (C57_decode_oid_all SIZE _ _ (le16 1 ++ le32 0x52545354 ++ uuid_buffer u ++ h_dice h ++ r) W I1 LO) as R1.
      pose proof (C57_decode_oid_all SIZE _ _ (le16 1 ++ le32 0x52545354 ++ uuid_buffer u ++ h_dice h ++ r') W I2 LO) as R2.
      rewrite <- !app_assoc in E. rewrite <- E in R2. rewrite R1 in R2.
      assert (Q : h_oid h ++ le16 1 ++ le32 0x52545354 ++ uuid_buffer u ++ h_dice h ++ r = h_oid h ++ le16 1 ++ le32 0x52545354 ++ uuid_buffer u ++ h_dice h ++ r') by congruence.
      do 5 apply app_inv_head in Q. subst r'. apply app_inv_tail in E. now subst i2. }
    destruct (h_key h) as [key|].
    - destruct SG as (K & SN & RT). unfold piece. rewrite app_length. replace (0 + length text <=? _) with true by lia. replace (_ <=? _) with true by lia.
      replace (length text + length r - length text) with (length r) by lia.
      pose proof (window_at [] text r) as W1. cbn [length app] in W1. rewrite (W1 0 (length text) eq_refl eq_refl).
      pose proof (window_at text r []) as W2. rewrite app_nil_r in W2. rewrite (W2 (length text) (length r) eq_refl eq_refl).
      unfold verify_message, verify_digest. rewrite E1, E2, E3, E4, RT. destruct r; [now elim SN|]. destruct key; [now elim K|]. cbn [length Nat.eqb negb]. eauto.
    - subst r. rewrite app_nil_r, Nat.eqb_refl. eauto. }
  destruct A as (t & A). unfold validate_data, execute. rewrite A. cbn [fst snd]. split; auto. split; [now destruct (e_transition e)|].
  apply in_or_app. right. now left.
Qed.
Print Assumptions C80_works.

(** Checking a token without using it makes no transition and gives the same
    verdict. *)
Theorem C80_validate : forall SIZE hash h e data,
  let '(s, t) := validate_data SIZE hash h e data in
  let '(s', t') := execute SIZE hash h e data in
  ~ In Transition t /\ (s = ROk <-> In Transition t') /\ (s <> ROk -> s' = s /\ t' = t).
Proof.
  intros SIZE hash h e data. unfold validate_data, execute.
  assert (NT : ~ In Transition (snd (authenticate SIZE hash h e data))).
  { unfold authenticate. destruct (validate SIZE h e data); [|intros []]. destruct (h_key h); [|intros []].
    destruct (piece data 0 n); [|intros []]. destruct (piece data n _); [|intros []]. unfold verify_message, verify_digest.
    destruct (length l1 =? 0); [intros []|]. destruct (e_start e); cbn [negb]; [|intros []].
    destruct (e_update e); cbn [negb]; [|cbn; intuition discriminate]. destruct (e_finish e); cbn [negb]; [|cbn; intuition discriminate].
    destruct (length l =? 0); [cbn; intuition discriminate|]. destruct (e_set_key e); cbn; intuition discriminate. }
  destruct (authenticate SIZE hash h e data) as [s t]. cbn [snd] in NT.
  destruct s; (split; [exact NT|split; [split; intros X; try discriminate X; try (now elim NT); try (apply in_or_app; right; now left); auto|intros X; try (now elim X); auto]]).
Qed.
Print Assumptions C80_validate.

(** However it ends: no hash is left active, and the key of the authority is
    not left in the verification engine, if that can be wiped. *)
Theorem C80_left : forall SIZE hash h e data k,
  let t := snd (execute SIZE hash h e data) in
  hash_left false t = false /\ (e_wipe e = true -> key_left k t = k \/ key_left k t = None).
Proof.
  intros SIZE hash h e data k. cbv zeta.
  assert (A : let t := snd (authenticate SIZE hash h e data) in forall t2, t2 = [] \/ t2 = [Transition] ->
    hash_left false (t ++ t2) = false /\ (e_wipe e = true -> key_left k (t ++ t2) = k \/ key_left k (t ++ t2) = None)).
  { cbv zeta. intros t2 T2. assert (Z : hash_left false t2 = false /\ forall k, key_left k t2 = k) by (destruct T2; subst; auto). destruct Z as (Z1 & Z2).
    unfold authenticate. destruct (validate SIZE h e data); [|cbn [snd app]; rewrite Z2; auto]. destruct (h_key h); [|cbn [snd app]; rewrite Z2; auto].
    destruct (piece data 0 n); [|cbn [snd app]; rewrite Z2; auto]. destruct (piece data n _); [|cbn [snd app]; rewrite Z2; auto]. unfold verify_message, verify_digest.
    destruct (length l1 =? 0); [cbn [snd app]; rewrite Z2; auto|]. destruct (e_start e); cbn [negb]; [|cbn [snd app]; rewrite Z2; auto].
    destruct (e_update e); cbn [negb]; [|cbn [snd app hash_left key_left]; rewrite Z2; auto]. destruct (e_finish e); cbn [negb]; [|cbn [snd app hash_left key_left]; rewrite Z2; auto].
    destruct (length l =? 0); [cbn [snd app hash_left key_left]; rewrite Z2; auto|]. destruct (e_set_key e); cbn [negb snd app hash_left key_left]; [|rewrite Z2; auto].
    split; auto. intros ->. rewrite Z2. auto. }
  cbv zeta in A. unfold execute. destruct (authenticate SIZE hash h e data) as [s t]. cbn [snd] in A.
  pose proof (A [] (or_introl eq_refl)) as A0. rewrite app_nil_r in A0. destruct s; try exact A0. apply A. now right.
Qed.
Print Assumptions C80_left.

(** The device's request is given as a whole or not at all. *)
Theorem C80_request : forall csr buf,
  let '(b, r) := get_unlock_token csr buf in
  length b = length buf /\
  match r with
  | Some n => n = length csr /\ b = csr ++ skipn (length csr) buf
  | None => b = buf /\ length buf < length csr
  end.
Proof.
  intros csr buf. unfold get_unlock_token. destruct (length buf <? length csr) eqn:L; [split; [|split]; auto; lia|].
  rewrite length_splice by lia. split; auto.
Qed.
Print Assumptions C80_request.

(** A signed token for a device with a UUID of three bytes; the same token with
    another signature, and for another device. *)
Definition ex_oid : list N := [0x2b; 6; 1]%N.
Definition ex_handler : handler := Handler ex_oid (repeat 5%N 32) (Some [9; 9]%N).
Definition ex_env : env := Env (Some [1; 2; 3]%N) true true true true true true (fun k d s => if list_eq_dec N.eq_dec s (k ++ firstn 2 d) then true else false).
Definition ex_hash (d : list N) : list N := repeat (N.of_nat (length d)) 32.
Definition ex_text : list N := [6; 3; 0x2b; 6; 1]%N ++ le16 1 ++ le32 0x52545354 ++ ([1; 2; 3]%N ++ repeat 0%N 13) ++ repeat 5%N 32.

Example C80_example :
  device_ok (2 ^ 32) ex_handler [1; 2; 3]%N /\ bytes_ok (ex_text ++ [9; 9; 59; 59]%N) /\
  good_token ex_hash (e_verify ex_env) ex_oid [1; 2; 3]%N (repeat 5%N 32) (Some [9; 9]%N) (ex_text ++ [9; 9; 59; 59]%N) /\
  execute (2 ^ 32) ex_hash ex_handler ex_env (ex_text ++ [9; 9; 59; 59]%N) =
    (ROk, [HashStart; HashUpdate ex_text; HashFinish true; SetKey (Some [9; 9]%N) true; Verify (repeat 59%N 32) [9; 9; 59; 59]%N; SetKey None true; Transition]) /\
  fst (execute (2 ^ 32) ex_hash ex_handler ex_env (ex_text ++ [9; 9; 59; 58]%N)) = RSignature /\
  fst (execute (2 ^ 32) ex_hash ex_handler ex_env ex_text) = RSignature /\
  fst (execute (2 ^ 32) ex_hash (Handler [0x2b; 6; 2]%N (repeat 5%N 32) (Some [9; 9]%N)) ex_env (ex_text ++ [9; 9; 59; 59]%N)) = RMismatch.
Proof.
  split; [repeat split; try (apply Forall_forall; vm_compute; intuition (subst; reflexivity)); vm_compute; auto 20|].
  split; [repeat constructor|]. split.
  - exists ex_text, [9; 9; 59; 59]%N. split.
    + exists [6; 3; 0x2b; 6; 1]%N, ([1; 2; 3]%N ++ repeat 0%N 13). split; [|split; [|reflexivity]].
      * exists [3%N]. split; [left; split; [vm_compute|]; reflexivity|]. split; [cbn; lia|reflexivity].
      * split; [reflexivity|]. exists (repeat 0%N 13). split; [|reflexivity]. repeat constructor.
    + split; [reflexivity|]. split; [discriminate|]. split; [discriminate|reflexivity].
  - repeat split; vm_compute; reflexivity.
Qed.
