(** C74: unsealing. *)
From Coq Require Import List NArith Lia Bool Arith ZifyBool ZifyNat ZifyN.
From Verif Require Import Base Unseal_Model Unseal_Spec BufferUtil_Model BufferUtil_Proofs
  SpdmSession_Wire_Proofs AuxAtt_Model
  AuxAtt_Spec.
Import ListNotations.
Local Open Scope nat_scope.

Lemma scan_true : forall row j u, scan row j u = Some true <-> row = repeat 0%N (length row).
Proof.
  induction row as [|x r IH]; intros j u; cbn [scan length repeat]; [tauto|].
  destruct (x =? 0)%N eqn:E.
  - apply N.eqb_eq in E. subst x. rewrite IH. split; [intros <-|intros [=]]; [reflexivity|assumption].
  - apply N.eqb_neq in E. split; [destruct (j <? u); discriminate|]. intros [= X _]. congruence.
Qed.

Lemma scan_false : forall row j u, scan row j u = Some false ->
  firstn (u - j) row = repeat 0%N (Nat.min (u - j) (length row)) /\ row <> repeat 0%N (length row).
Proof.
  induction row as [|x r IH]; intros j u H; cbn [scan] in H; [discriminate|].
  destruct (x =? 0)%N eqn:E.
  - apply N.eqb_eq in E. subst x. destruct (IH _ _ H) as (A & B). split.
    + destruct (u - j) as [|n] eqn:D; [reflexivity|]. replace (u - S j) with n in A by lia.
      cbn [firstn length Nat.min repeat]. rewrite A. reflexivity.
    + cbn [length repeat]. intros [= X]. contradiction.
  - apply N.eqb_neq in E. destruct (j <? u) eqn:D; [discriminate|]. split.
    + replace (u - j) with 0 by lia. reflexivity.
    + cbn [length repeat]. intros [= X _]. congruence.
Qed.

Lemma scan_pad : forall row j u n, firstn n row = repeat 0%N n -> u <= j + n -> n <= length row ->
  scan row j u <> None.
Proof.
  induction row as [|x r IH]; intros j u n H L N; cbn [scan]; [discriminate|].
  destruct n as [|n].
  - destruct (x =? 0)%N; [|replace (j <? u) with false by lia; discriminate].
    apply (IH (S j) u 0); [reflexivity|lia|lia].
  - cbn [firstn repeat] in H. injection H as -> H. change ((0 =? 0)%N) with true. cbv iota.
    apply (IH (S j) u n); [exact H|lia|cbn in N; lia].
Qed.

(** What is assumed of the PCRs: values are bytes, as many as the digest
    length, at most 64. *)
Definition pcrs_ok (pcrs : nat -> option (nat * (N + list N))) : Prop :=
  forall i n v, pcrs i = Some (n, v) -> n <= 64 /\ forall d, v = inr d -> length d = n /\ bytes d.

Definition rows_ok (sealing : list (list N)) : Prop :=
  Forall (fun row => length row = 64 /\ bytes row) sealing.

Lemma firstn_whole : forall {A} (l : list A) n, length l = n -> firstn n l = l.
Proof. intros A l n <-. apply firstn_all. Qed.

Lemma bytes_skipn : forall n l, bytes l -> bytes (skipn n l).
Proof.
  intros n l H. unfold bytes in *. rewrite Forall_forall in *. intros x X. apply H.
  rewrite <- (firstn_skipn n l). apply in_or_app. right. exact X.
Qed.

Lemma check_row_allows : forall pcrs inv i row, pcrs_ok pcrs -> length row = 64 -> bytes row ->
  i < 256 -> (check_row pcrs inv i row = Success <-> allows pcrs i row).
Proof.
  intros pcrs inv i row P L B Hi. unfold check_row, POLICY. rewrite Nat.mod_small by exact Hi.
  rewrite (firstn_whole _ _ L).
  set (n := match pcrs i with Some (n, _) => n | None => 64 end).
  assert (Hn : n <= 64).
  { unfold n. destruct (pcrs i) as [(m, v)|] eqn:E; [|lia]. apply (P _ _ _ E). }
  destruct (scan row 0 (64 - n)) as [[|]|] eqn:S.
  - apply scan_true in S. split; [|reflexivity]. intros _. left. rewrite L in S. exact S.
  - apply scan_false in S. destruct S as (Z & NZ). rewrite L in NZ, Z.
    replace (Nat.min (64 - n - 0) 64) with (64 - n) in Z by lia. rewrite Nat.sub_0_r in Z.
    destruct (pcrs i) as [(m, v)|] eqn:E; fold n.
    + subst n. destruct (P _ _ _ E) as (_ & Pv). destruct v as [e|d].
      * split; [discriminate|]. intros [X|(n' & v' & X & _)]; [contradiction|]. rewrite E in X. discriminate X.
      * destruct (Pv d eq_refl) as (Ld & Bd).
        assert (Ls : length (skipn (64 - m) row) = m) by (rewrite skipn_length; lia).
        pose proof (buffer_compare_correct 8 d (skipn (64 - m) row) m Bd (bytes_skipn _ _ B)
          ltac:(lia) ltac:(lia)) as C.
        rewrite (firstn_whole _ _ Ld), (firstn_whole _ _ Ls) in C.
        destruct (buffer_compare (N.ones 8) (Some d) (Some (skipn (64 - m) row)) m).
        -- split; [|reflexivity]. intros _. right. exists m, d. split; [exact E|].
           rewrite (proj1 C eq_refl), <- Z. symmetry. apply firstn_skipn.
        -- split; [discriminate|]. intros [X|(n' & v' & X & Y)]; [contradiction|].
           rewrite E in X. injection X as <- <-. exfalso.
           assert (false = true); [|discriminate]. apply C. rewrite Y.
           rewrite skipn_app, repeat_length, Nat.sub_diag. cbn [skipn].
           rewrite skipn_all2 by (rewrite repeat_length; lia). reflexivity.
    + split; [discriminate|]. intros [X|(n' & v' & X & _)]; [contradiction|]. rewrite E in X. discriminate X.
  - split; [discriminate|]. intros [X|(n' & v' & X & Y)]; exfalso.
    + assert (scan row 0 (64 - n) = Some true) by (apply scan_true; rewrite L; exact X). congruence.
    + unfold n in S. rewrite X in S. destruct (P _ _ _ X) as (Hn' & Pv). destruct (Pv v' eq_refl) as (Lv & _).
      apply (scan_pad row 0 (64 - n') (64 - n')) in S; [exact S| |lia|lia].
      rewrite Y, firstn_app, repeat_length, Nat.sub_diag. cbn [firstn]. rewrite app_nil_r.
      apply firstn_whole. apply repeat_length.
Qed.

Lemma check_rows_allow : forall pcrs inv rows i, pcrs_ok pcrs -> rows_ok rows -> i + length rows <= 256 ->
  (check_rows pcrs inv i rows = Success <->
   forall j row, nth_error rows j = Some row -> allows pcrs (i + j) row).
Proof.
  intros pcrs inv rows. induction rows as [|row r IH]; intros i P R L; cbn [check_rows].
  - split; [|reflexivity]. intros _ [|j] row X; discriminate X.
  - inversion R as [|? ? (Lr & Br) R']; subst. cbn [length] in L.
    pose proof (check_row_allows pcrs inv i row P Lr Br ltac:(lia)) as C.
    specialize (IH (S i) P R' ltac:(lia)).
    destruct (check_row pcrs inv i row) eqn:E.
    + rewrite IH. split.
      * intros H [|j] q X; cbn [nth_error] in X.
        -- injection X as <-. rewrite Nat.add_0_r. apply C. reflexivity.
        -- rewrite Nat.add_succ_r. exact (H j q X).
      * intros H j q X. specialize (H (S j) q X). rewrite Nat.add_succ_r in H. exact H.
    + split; [discriminate|]. intros H. specialize (H 0 row eq_refl). rewrite Nat.add_0_r in H.
      apply C in H. discriminate H.
    + split; [discriminate|]. intros H. specialize (H 0 row eq_refl). rewrite Nat.add_0_r in H.
      apply C in H. discriminate H.
    + split; [discriminate|]. intros H. specialize (H 0 row eq_refl). rewrite Nat.add_0_r in H.
      apply C in H. discriminate H.
    + split; [discriminate|]. intros H. specialize (H 0 row eq_refl). rewrite Nat.add_0_r in H.
      apply C in H. discriminate H.
    + split; [discriminate|]. intros H. specialize (H 0 row eq_refl). rewrite Nat.add_0_r in H.
      apply C in H. discriminate H.
    + split; [discriminate|]. intros H. specialize (H 0 row eq_refl). rewrite Nat.add_0_r in H.
      apply C in H. discriminate H.
    + split; [discriminate|]. intros H. specialize (H 0 row eq_refl). rewrite Nat.add_0_r in H.
      apply C in H. discriminate H.
    + split; [discriminate|]. intros H. specialize (H 0 row eq_refl). rewrite Nat.add_0_r in H.
      apply C in H. discriminate H.
    + split; [discriminate|]. intros H. specialize (H 0 row eq_refl). rewrite Nat.add_0_r in H.
      apply C in H. discriminate H.
    + split; [discriminate|]. intros H. specialize (H 0 row eq_refl). rewrite Nat.add_0_r in H.
      apply C in H. discriminate H.
Qed.

Lemma get_seed_recovered : forall decrypt ecdh ty pa seed s,
  get_seed decrypt ecdh ty pa seed = inr s <-> recovered decrypt ecdh seed ty pa s.
Proof.
  intros decrypt ecdh ty pa seed s. unfold get_seed. split.
  - intros H. destruct (ty =? 0)%N eqn:T0.
    + apply N.eqb_eq in T0. subst ty. destruct (pa =? 1)%N eqn:P1.
      * apply N.eqb_eq in P1. subst pa. destruct (decrypt false seed) eqn:D; [discriminate|].
        injection H as <-. apply rsa_sha1. exact D.
      * destruct (pa =? 2)%N eqn:P2; [|discriminate]. apply N.eqb_eq in P2. subst pa.
        destruct (decrypt true seed) eqn:D; [discriminate|]. injection H as <-. apply rsa_sha256. exact D.
    + destruct (ty =? 1)%N eqn:T1; [|discriminate]. apply N.eqb_eq in T1. subst ty.
      destruct (pa =? 0)%N eqn:P0.
      * apply N.eqb_eq in P0. subst pa. cbn in H. destruct (ecdh false seed) eqn:D; [discriminate|].
        injection H as <-. apply ecdh_raw. exact D.
      * destruct (pa =? 1)%N eqn:P1; [|discriminate]. apply N.eqb_eq in P1. subst pa. cbn in H.
        destruct (ecdh true seed) eqn:D; [discriminate|]. injection H as <-. apply ecdh_sha256. exact D.
  - intros H. inversion H as [x D|x D|x D|x D]; subst; cbn; rewrite D; reflexivity.
Qed.

(** What is assumed of the HMAC and the key derivation: 32 bytes. *)
Definition hmac_ok (hmac : list N -> list N -> N + list N) : Prop :=
  forall k d m, hmac k d = inr m -> length m = 32 /\ bytes m.

(** Unsealing succeeds exactly if it may, and then the buffer starts with the
    encryption key. *)
Theorem C74_unseal : forall decrypt ecdh kdf hmac pcrs inv seed ty pa given ciphertext sealing key key',
  pcrs_ok pcrs -> hmac_ok hmac -> rows_ok sealing -> length sealing <= 256 ->
  length given = 32 -> bytes given -> seed <> [] -> ciphertext <> [] -> sealing <> [] ->
  32 <= length key ->
  (aux_unseal decrypt ecdh kdf hmac pcrs inv 32 seed ty pa given HMAC_SHA256 ciphertext sealing key =
     (Success, key') <->
   exists k, may_unseal decrypt ecdh kdf hmac pcrs seed ty pa given ciphertext sealing k /\
             key' = splice key 0 k).
Proof.
  intros decrypt ecdh kdf hmac pcrs inv seed ty pa given ciphertext sealing key key' P Hh R L Lg Bg Ns Nc Nr Lk.
  unfold aux_unseal, KEY_256BIT.
  assert (E0 : (length seed =? 0) || (length ciphertext =? 0) || (length sealing =? 0) = false).
  { destruct seed; [congruence|]. destruct ciphertext; [congruence|]. destruct sealing; [congruence|].
    reflexivity. }
  rewrite E0. change (negb (32 =? 32)) with false. change (negb (HMAC_SHA256 =? HMAC_SHA256)%N) with false.
  replace (length key <? 32) with false by lia. cbv iota.
  pose proof (check_rows_allow pcrs inv sealing 0 P R ltac:(lia)) as CR.
  pose proof (get_seed_recovered decrypt ecdh ty pa seed) as G.
  unfold may_unseal.
  split.
  - intros H. destruct (get_seed decrypt ecdh ty pa seed) as [c|secret] eqn:GS.
    { exfalso. injection H as -> _. unfold get_seed in GS.
      destruct (ty =? 0)%N; [destruct (pa =? 1)%N; [destruct (decrypt false seed)|destruct (pa =? 2)%N; [destruct (decrypt true seed)|]]
        |destruct (ty =? 1)%N; [destruct (negb (pa =? 0)%N && negb (pa =? 1)%N); [|destruct (ecdh (pa =? 1)%N seed)]|]];
        discriminate GS. }
    destruct (kdf secret SIGNING_LABEL) as (st, signing) eqn:K1.
    destruct (st =? 0)%N eqn:Z1; cbn [negb] in H; [|discriminate H]. apply N.eqb_eq in Z1. subst st.
    destruct (hmac signing (ciphertext ++ concat sealing)) as [e|m] eqn:M; [discriminate H|].
    destruct (buffer_compare (N.ones 8) (Some given) (Some m) 32) eqn:BC; cbn [negb] in H; [|discriminate H].
    destruct (Hh _ _ _ M) as (Lm & Bm).
    apply (buffer_compare_correct 8 given m 32 Bg Bm) in BC; [|lia|lia].
    rewrite (firstn_whole _ _ Lg), (firstn_whole _ _ Lm) in BC. subst m.
    destruct (check_rows pcrs inv 0 sealing) eqn:CS; try discriminate H.
    destruct (kdf secret ENCRYPTION_LABEL) as (st, k) eqn:K2.
    destruct (st =? 0)%N eqn:Z2; [|discriminate H]. apply N.eqb_eq in Z2. subst st. injection H as <-.
    exists k. split; [|reflexivity]. exists secret, signing.
    split; [apply G; reflexivity|]. split; [exact K1|]. split; [exact M|]. split; [|exact K2].
    exact (proj1 CR eq_refl).
  - intros (k & (secret & signing & Rs & K1 & M & Al & K2) & ->).
    apply G in Rs. rewrite Rs.
    change [115; 105; 103; 110; 105; 110; 103; 32; 107; 101; 121]%N with SIGNING_LABEL in K1.
    change [101; 110; 99; 114; 121; 112; 116; 105; 111; 110; 32; 107; 101; 121]%N with ENCRYPTION_LABEL in K2.
    rewrite K1. change (negb (0 =? 0)%N) with false. cbv iota. rewrite M.
    assert (BC : buffer_compare (N.ones 8) (Some given) (Some given) 32 = true).
    { apply (buffer_compare_correct 8 given given 32 Bg Bg); [lia|lia|reflexivity]. }
    rewrite BC. cbn [negb]. rewrite (proj2 CR Al), K2. reflexivity.
Qed.
Print Assumptions C74_unseal.

(** If unsealing fails the buffer is as it was, unless everything was in order
    and deriving the key itself failed. *)
Theorem C74_refused : forall decrypt ecdh kdf hmac pcrs inv kt seed ty pa given ht ciphertext sealing key c key',
  aux_unseal decrypt ecdh kdf hmac pcrs inv kt seed ty pa given ht ciphertext sealing key = (c, key') ->
  c <> Success ->
  key' = key \/
  exists secret st out, recovered decrypt ecdh seed ty pa secret /\
    kdf secret ENCRYPTION_LABEL = (st, out) /\ st <> 0%N /\ c = External st /\ key' = splice key 0 out /\
    check_rows pcrs inv 0 sealing = Success.
Proof.
  intros decrypt ecdh kdf hmac pcrs inv kt seed ty pa given ht ciphertext sealing key c key' H N.
  unfold aux_unseal in H.
  repeat match type of H with (if ?b then _ else _) = _ => destruct b; [injection H as _ <-; left; reflexivity|] end.
  destruct (get_seed decrypt ecdh ty pa seed) as [e|secret] eqn:GS; [injection H as _ <-; left; reflexivity|].
  destruct (kdf secret SIGNING_LABEL) as (st, signing).
  destruct (negb (st =? 0)%N); [injection H as _ <-; left; reflexivity|].
  destruct (hmac signing (ciphertext ++ concat sealing)) as [e|m]; [injection H as _ <-; left; reflexivity|].
  destruct (negb (buffer_compare (N.ones 8) (Some given) (Some m) 32)); [injection H as _ <-; left; reflexivity|].
  destruct (check_rows pcrs inv 0 sealing) eqn:CS; try (injection H as _ <-; left; reflexivity).
  destruct (kdf secret ENCRYPTION_LABEL) as (st2, out) eqn:K. injection H as <- <-. right.
  destruct (st2 =? 0)%N eqn:Z; [congruence|]. apply N.eqb_neq in Z.
  exists secret, st2, out. split; [apply get_seed_recovered; exact GS|]. repeat split; assumption.
Qed.
Print Assumptions C74_refused.

(** A request on the wire is unsealed exactly if it may be: the five values
    of the message, in order, each for its PCR. *)
Theorem C74_request : forall decrypt ecdh kdf hmac pcrs inv f key key',
  pcrs_ok pcrs -> hmac_ok hmac -> wellformed f -> bytes (f_hmac f) -> bytes (f_pmrs f) -> length key = 32 ->
  (forall secret label st out, kdf secret label = (st, out) -> length out = 32) ->
  (unseal_request decrypt ecdh kdf hmac pcrs inv (request_of f) key = (Success, key') <->
   exists p0 p1 p2 p3 p4,
     f_pmrs f = p0 ++ p1 ++ p2 ++ p3 ++ p4 /\
     Forall (fun p => length p = 64) [p0; p1; p2; p3; p4] /\
     may_unseal decrypt ecdh kdf hmac pcrs (f_seed f) (N.land (f_types f) 3)
       (if (N.land (f_types f) 3 =? 1)%N then N.land (f_params f) 1 else N.land (f_params f) 7)
       (f_hmac f) (f_ciphertext f) [p0; p1; p2; p3; p4] key').
Proof.
  intros decrypt ecdh kdf hmac pcrs inv f key key' P Hh W Bh Bp Lk Kl.
  destruct W as (_ & _ & _ & W4 & W5 & W6 & W7).
  unfold unseal_request, request_of. cbn [a_seed a_seed_type a_seed_param a_hmac a_ciphertext a_pmrs].
  unfold KEY_256BIT.
  set (rows := map (fun i => window (64 * i) 64 (f_pmrs f)) [0; 1; 2; 3; 4]).
  assert (R : rows_ok rows).
  { unfold rows_ok, rows. apply Forall_map. apply Forall_forall. intros i Hi. split.
    - rewrite length_window. cbn in Hi. lia.
    - unfold bytes, window in *. rewrite Forall_forall in *. intros x X. apply Bp.
      rewrite <- (firstn_skipn (64 * i) (f_pmrs f)). apply in_or_app. right.
      rewrite <- (firstn_skipn 64 (skipn (64 * i) (f_pmrs f))). apply in_or_app. left. exact X. }
  assert (Sp : splice key 0 = fun k => k ++ skipn (length k) key) by reflexivity.
  rewrite C74_unseal; auto; try (intros X; rewrite X in *; cbn in *; lia); try (cbn; lia).
  split.
  - intros (k & M & ->).
    exists (window 0 64 (f_pmrs f)), (window 64 64 (f_pmrs f)), (window 128 64 (f_pmrs f)),
      (window 192 64 (f_pmrs f)), (window 256 64 (f_pmrs f)).
    split; [|split].
    + assert (X : f_pmrs f = window 0 (64 + (64 + (64 + (64 + 64)))) (f_pmrs f)).
      { unfold window. cbn [skipn]. symmetry. apply firstn_whole. exact W7. }
      rewrite X at 1. do 4 rewrite window_split. reflexivity.
    + repeat (constructor; [rewrite length_window; lia|]). constructor.
    + assert (Lkk : length k = 32).
      { destruct M as (secret & signing & _ & _ & _ & _ & K2). exact (Kl _ _ _ _ K2). }
      rewrite Sp. cbv beta. rewrite Lkk, skipn_all2, app_nil_r by lia. exact M.
  - intros (p0 & p1 & p2 & p3 & p4 & E & F & M). exists key'.
    inversion F as [|? ? L0 F1]; subst. inversion F1 as [|? ? L1 F2]; subst. inversion F2 as [|? ? L2 F3]; subst.
    inversion F3 as [|? ? L3 F4]; subst. inversion F4 as [|? ? L4 F5]; subst.
    assert (X : rows = [p0; p1; p2; p3; p4]).
    { unfold rows. cbn [map]. rewrite E. f_equal; [|f_equal; [|f_equal; [|f_equal; [|f_equal]]]].
      - apply (SpdmSession_Wire_Proofs.window_at [] p0 _ 0 64); [reflexivity|exact L0].
      - apply (SpdmSession_Wire_Proofs.window_at p0 p1 _ 64 64); [exact L0|exact L1].
      - rewrite (app_assoc p0). apply (SpdmSession_Wire_Proofs.window_at (p0 ++ p1) p2 _ 128 64); [rewrite app_length; lia|exact L2].
      - rewrite (app_assoc p0), (app_assoc (p0 ++ p1)).
        apply (SpdmSession_Wire_Proofs.window_at ((p0 ++ p1) ++ p2) p3 _ 192 64); [rewrite !app_length; lia|exact L3].
      - rewrite (app_assoc p0), (app_assoc (p0 ++ p1)), (app_assoc ((p0 ++ p1) ++ p2)).
        rewrite <- (app_nil_r p4) at 1.
        apply (SpdmSession_Wire_Proofs.window_at (((p0 ++ p1) ++ p2) ++ p3) p4 [] 256 64); [rewrite !app_length; lia|exact L4]. }
    rewrite X. split; [exact M|].
    assert (Lkk : length key' = 32).
    { destruct M as (secret & signing & _ & _ & _ & _ & K2). exact (Kl _ _ _ _ K2). }
    rewrite Sp. cbv beta. rewrite Lkk, skipn_all2, app_nil_r by lia. reflexivity.
  - discriminate.
Qed.
Print Assumptions C74_request.

(** A device with one PCR of 32 bytes; the second is not there. *)
Definition demo_pcrs (i : nat) : option (nat * (N + list N)) :=
  if i =? 0 then Some (32, inr (repeat 7%N 32)) else None.
Definition demo_decrypt (sha256 : bool) (seed : list N) : N + list N :=
  if sha256 then inr (rev seed) else inl 3%N.
Definition demo_kdf (secret label : list N) : N * list N := (0%N, repeat (N.of_nat (length label)) 32).
Definition demo_hmac (k d : list N) : N + list N := inr (firstn 32 (k ++ d)).
Definition empty : list N := repeat 0%N 64.
Definition pcr0 : list N := repeat 0%N 32 ++ repeat 7%N 32.

(** The right policy gives the key; a stale PCR, a value for the PCR that is
    not there and a wrong HMAC give nothing. *)
Example C74_demo :
  let run given sealing := aux_unseal demo_decrypt demo_decrypt demo_kdf demo_hmac demo_pcrs 9%N 32 [1; 2]%N 0 2
    given HMAC_SHA256 [5; 6]%N sealing (repeat 99%N 34) in
  pcrs_ok demo_pcrs /\
  run (repeat 11%N 32) [pcr0; empty] = (Success, repeat 14%N 32 ++ [99; 99]%N) /\
  run (repeat 11%N 32) [upd pcr0 40 8%N; empty] = (PcrMismatch, repeat 99%N 34) /\
  run (repeat 11%N 32) [upd pcr0 3 8%N; empty] = (PcrLengthMismatch, repeat 99%N 34) /\
  run (repeat 11%N 32) [pcr0; pcr0] = (External 9, repeat 99%N 34) /\
  run (repeat 12%N 32) [pcr0; empty] = (HmacMismatch, repeat 99%N 34).
Proof.
  cbv zeta. split; [|vm_compute; repeat split; reflexivity].
  intros i n v H. unfold demo_pcrs in H. destruct (i =? 0); [|discriminate H].
  injection H as <- <-. split; [lia|]. intros d [= <-]. split; [reflexivity|].
  apply Forall_forall. intros x X. apply (repeat_spec 32 7%N x) in X. subst x. reflexivity.
Qed.

(** The command takes a seed with PKCS#1 v1.5 padding (parameter 0); unsealing
    then never succeeds. *)
Theorem C74_pkcs15_refused : forall decrypt ecdh kdf hmac pcrs inv kt seed given ht ciphertext sealing key,
  fst (aux_unseal decrypt ecdh kdf hmac pcrs inv kt seed 0 0 given ht ciphertext sealing key) <> Success.
Proof.
  intros. unfold aux_unseal.
  repeat match goal with |- fst (if ?b then _ else _) <> _ => destruct b; [discriminate|] end. discriminate.
Qed.
Print Assumptions C74_pkcs15_refused.
