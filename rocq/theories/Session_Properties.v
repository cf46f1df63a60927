(** Session properties (C32) and the key exchange response (C40). *)
From Coq Require Import List NArith Lia Bool Arith.
From Coq Require Import ZifyBool ZifyNat ZifyN.
From Verif Require Import Base ByteMath_Model BufferUtil_Model Session_Model Session_Spec Session_Proofs Session_Inv_Proofs
  Session_Message_Proofs.
Import ListNotations.

(** A history: any calls, from a table of [n] free entries, with any outcome of every cryptographic, allocation
    and keystore operation, and any cipher, HMAC and key derivation function. *)
Definition history enc dec hmac kdf pairing store n l t es : Prop :=
  run enc dec hmac kdf pairing store (init_table n) l = (t, es).

Lemma history_inv : forall enc dec hmac kdf pairing store n l t es,
  history enc dec hmac kdf pairing store n l t es -> inv t es.
Proof. intros until es. intros H. exact (run_inv _ _ _ _ _ _ _ _ _ [] es (proj1 (init_inv n)) H). Qed.

(** Example environment: two peers, a toy cipher. *)
Definition ex_enc (k iv p : list N) : list N * list N := (map (fun x => N.lxor x 1) p, firstn 16 (k ++ zeros 16)).
Definition ex_dec (k iv c tag : list N) : option (list N) :=
  if list_eq_dec N.eq_dec tag (firstn 16 (k ++ zeros 16)) then Some (map (fun x => N.lxor x 1) c) else None.
Definition ex_hmac (k d : list N) : list N := firstn 32 (d ++ k ++ zeros 32).
Definition ex_kdf (k l c : list N) : list N := firstn 32 (N.of_nat (length k) :: N.of_nat (length c) :: k ++ l ++ c ++ zeros 32).
Definition ex_env (s : N) : est_env :=
  EstEnv true true (Some [1; 2; 3]%N) true true (Some [4; 5]%N) true true (Some [s]) true true [9%N] true.
Definition ex_msg (eid : N) : msg := Msg (repeat 0%N 80) 10 80 eid.
Definition ex_open (eid s : N) : list op := [OpAdd eid (repeat 3%N 32) (repeat 4%N 32); OpEstablish (ex_msg eid) (ex_env s)].
Notation ex_run := (run ex_enc ex_dec ex_hmac ex_kdf [10; 11]%N true (init_table 2)).
Definition ex_mac (t : table) (i : nat) (pk : list N) : list N := ex_hmac (e_hmac (at_ t i)) pk.
Definition ex_pair (eid : N) (i : nat) (ok : bool) : op :=
  let t := fst (ex_run (ex_open 10 1 ++ ex_open 11 2)) in
  OpPair eid (ex_mac t i (ex_kdf (e_key (at_ t i)) PAIRING [])) (PairEnv NoKey true true ok true).

(** The sessions are exactly those that were set up and not removed, each peer has at most one, and a session
    counts as established exactly when a key was agreed for it. *)
Theorem C32_sessions : forall enc dec hmac kdf pairing store n l t es,
  history enc dec hmac kdf pairing store n l t es ->
  (forall eid, reflected t eid (view es eid)) /\
  (forall eid i j, session_at t i eid -> session_at t j eid -> i = j) /\
  (forall eid, is_established t eid = true <-> exists k, view es eid = Active k).
Proof.
  intros until es. intros H. pose proof (history_inv _ _ _ _ _ _ _ _ _ _ H) as J. pose proof J as [S IV V].
  split; [exact V|]. split; [intros eid i j A B; exact (S i j eid A B)|].
  intros eid. unfold is_established. destruct (get_session t eid) as [i|] eqn:G.
  - apply get_session_some in G. rewrite (view_of _ _ _ _ J G). destruct (usable (e_state (at_ t i))).
    + split; [eauto|reflexivity].
    + split; [discriminate|intros (k & K); discriminate].
  - split; [discriminate|]. intros (k & K). specialize (V eid). rewrite K in V. destruct V as (i & A & _).
    exfalso. exact (get_session_none _ _ G _ A).
Qed.
Print Assumptions C32_sessions.

(** Messages are encrypted and accepted only with the key of an established session with their peer; keys are
    agreed only for a peer that was set up, and replaced only in an established session. *)
Theorem C32_only_established : forall enc dec hmac kdf pairing store n l t es e1 ev e2,
  history enc dec hmac kdf pairing store n l t es -> es = e1 ++ ev :: e2 ->
  match ev with
  | Encrypted eid k _ | Accepted eid k => view e1 eid = Active k
  | Agreed eid _ => view e1 eid = Pending
  | Rekeyed eid _ => exists k, view e1 eid = Active k
  | Removed eid => view e1 eid <> NoSession
  | _ => True
  end.
Proof.
  intros until e2. intros H E. destruct (run_split _ _ _ _ _ _ _ _ _ _ _ _ _ H E) as (l1 & o & l2 & t1 & t2 & _ & R & S & _).
  pose proof (history_inv _ _ _ _ _ _ _ _ _ _ R) as J. pose proof (step_change _ _ _ _ _ _ _ _ _ _ S) as C.
  destruct C; try exact Logic.I;
    try (match goal with G : get_session _ _ = Some _ |- _ => apply get_session_some in G; pose proof (view_of _ _ _ _ J G) as W end).
  - now rewrite W, H1.
  - now rewrite W, H1.
  - now rewrite W, H1.
  - rewrite W. destruct (usable (e_state (at_ t1 i))); discriminate.
  - rewrite W, H1. eauto.
  - destruct H3 as [->|(st & ->)]; exact Logic.I.
Qed.
Print Assumptions C32_only_established.

(** If the keys agreed are all different, the cipher is never given the same key and IV twice, in any session. *)
Theorem C32_no_reuse : forall enc dec hmac kdf pairing store n l t es,
  history enc dec hmac kdf pairing store n l t es -> NoDup (agreed_keys es) -> NoDup (uses es).
Proof.
  intros until es. intros H ND.
  exact (f_nodup _ _ (run_fresh _ _ _ _ _ _ l _ _ [] es (proj1 (init_inv n)) (proj2 (init_inv n)) ND H)).
Qed.
Print Assumptions C32_no_reuse.

(** The IVs used are 12 bytes from the upper half of their range: the counter never wraps into the other half. *)
Theorem C32_iv_half : forall enc dec hmac kdf pairing store n l t es k iv,
  history enc dec hmac kdf pairing store n l t es -> In (k, iv) (uses es) ->
  length iv = 12 /\ bytes_ok iv /\ (2 ^ 95 < be_value iv)%N.
Proof.
  intros until iv. intros H I0. unfold uses in I0. apply in_flat_map in I0. destruct I0 as (ev & I0 & I1).
  destruct (in_split _ _ I0) as (e1 & e2 & E). destruct (run_split _ _ _ _ _ _ _ _ _ _ _ _ _ H E) as (l1 & o & l2 & t1 & t2 & _ & R & S & _).
  pose proof (history_inv _ _ _ _ _ _ _ _ _ _ R) as J. pose proof (step_change _ _ _ _ _ _ _ _ _ _ S) as C.
  destruct ev; try contradiction. destruct I1 as [I1|[]]. injection I1 as -> ->.
  inversion C; subst; [|match goal with Q : _ = Quiet \/ _ |- _ => destruct Q as [Q|(? & Q)]; discriminate end].
  match goal with G : get_session _ _ = Some _ |- _ => apply get_session_some in G; destruct G as (L & _ & U) end.
  destruct (i_ivs _ _ J i L U) as (I1 & I2 & I3).
  match goal with Q : increment_byte_array _ _ = _ |- _ => destruct (increment_cases _ _ _ I1 I2 Q) as [(_ & Q1 & Q2 & Q3)|(Q1 & _)]; [|congruence] end.
  split; [auto|]. split; [auto|]. change (2 ^ 95)%N with half. lia.
Qed.
Print Assumptions C32_iv_half.

Definition ex_two : list op := ex_open 10 1 ++ ex_open 11 2 ++
  [OpEncrypt (ex_msg 10) AesOk; OpEncrypt (ex_msg 11) AesFails; OpEncrypt (ex_msg 10) AesOk; ex_pair 10 0 true;
   OpEncrypt (ex_msg 10) AesOk; OpReset 11 None false; OpEncrypt (ex_msg 11) AesOk].
Example C32_history_ex : exists t es, history ex_enc ex_dec ex_hmac ex_kdf [10; 11]%N true 2 ex_two t es /\
  NoDup (agreed_keys es) /\ length (uses es) = 4 /\ length (agreed_keys es) = 3 /\ view es 11%N = NoSession /\
  exists k, view es 10%N = Active k.
Proof.
  eexists. eexists. split; [vm_compute; reflexivity|]. split.
  - vm_compute. repeat constructor; cbn; intuition discriminate.
  - repeat split; try (vm_compute; reflexivity). eexists. vm_compute. reflexivity.
Qed.

(** A session is refused for lack of room only if every entry belongs to another peer. *)
Theorem C32_capacity : forall enc dec hmac kdf pairing store n l t es eid a b t' ev,
  history enc dec hmac kdf pairing store n l t es ->
  step enc dec hmac kdf pairing store t (OpAdd eid a b) = (t', ev) ->
  ev = Added eid \/
  (ev = Failed SmFull /\ t' = t /\
   exists ps, NoDup ps /\ length ps = n /\ ~ In eid ps /\ forall x, In x ps -> view es x <> NoSession).
Proof.
  intros until ev. intros H S. pose proof (history_inv _ _ _ _ _ _ _ _ _ _ H) as J.
  assert (LN: length t = n).
  { assert (K: forall l t t' es, run enc dec hmac kdf pairing store t l = (t', es) -> length t' = length t).
    { clear. induction l as [|o l IH]; intros t t' es H; cbn [run] in H; [now injection H as <- _|].
      destruct (step enc dec hmac kdf pairing store t o) as [t1 e] eqn:E1.
      destruct (run enc dec hmac kdf pairing store t1 l) as [t2 es'] eqn:E2. injection H as <- _. rewrite (IH _ _ _ E2).
      destruct (step_local _ _ _ _ _ _ _ _ _ _ E1) as [->|(i & e' & -> & _)]; [auto|apply length_upd]. }
    rewrite (K _ _ _ _ H). apply repeat_length. }
  cbn [step] in S. unfold add_session in S. destruct (get_session t eid) as [i|] eqn:G; [injection S as <- <-; auto|].
  destruct (get_free t) as [i|] eqn:F; injection S as <- <-; [auto|]. right. split; [auto|]. split; [auto|].
  pose proof (get_free_none _ F) as U. exists (map e_eid t).
  assert (AT: forall x, In x (map e_eid t) -> exists i, session_at t i x).
  { intros x I0. apply in_map_iff in I0. destruct I0 as (e & <- & I0). apply (In_nth _ _ blank_entry) in I0.
    destruct I0 as (i & Li & Ei). exists i. split; [auto|]. split; [unfold at_; now rewrite Ei|auto]. }
  split.
  - apply (NoDup_nth (map e_eid t) (e_eid blank_entry)). intros i j Li Lj E. rewrite map_length in *. rewrite !map_nth in E.
    apply (i_single _ _ J i j (e_eid (at_ t i))); [split; [auto|]; split; auto|]. split; [auto|]. split; [symmetry; exact E|auto].
  - split; [now rewrite map_length|]. split.
    + intros I0. destruct (AT _ I0) as (i & A). exact (get_session_none _ _ G _ A).
    + intros x I0 V. destruct (AT _ I0) as (i & A). pose proof (i_view _ _ J x) as R. rewrite V in R. exact (R i A).
Qed.
Print Assumptions C32_capacity.
Example C32_capacity_ex : exists t es, history ex_enc ex_dec ex_hmac ex_kdf [10; 11]%N true 2 (ex_open 10 1 ++ ex_open 11 2) t es /\
  snd (step ex_enc ex_dec ex_hmac ex_kdf [10; 11]%N true t (OpAdd 12 [] [])) = Failed SmFull /\
  snd (step ex_enc ex_dec ex_hmac ex_kdf [10; 11]%N true t (OpAdd 11 [] [])) = Added 11.
Proof. eexists. eexists. split; [vm_compute; reflexivity|]. split; vm_compute; reflexivity. Qed.

(** A call about one peer does not touch any other peer's session. *)
Theorem C32_isolation : forall enc dec hmac kdf pairing store t o t' ev eid i,
  step enc dec hmac kdf pairing store t o = (t', ev) -> op_eid o <> eid -> session_at t i eid ->
  session_at t' i eid /\ at_ t' i = at_ t i.
Proof. intros until i. intros H Ne A. destruct (step_isolated _ _ _ _ _ _ _ _ _ _ _ _ H Ne A). auto. Qed.
Print Assumptions C32_isolation.
Example C32_isolation_ex : exists t es, history ex_enc ex_dec ex_hmac ex_kdf [10; 11]%N true 2 (ex_open 10 1 ++ ex_open 11 2) t es /\
  session_at t 0 10 /\ fst (step ex_enc ex_dec ex_hmac ex_kdf [10; 11]%N true t (OpReset 11 None false)) <> t.
Proof.
  eexists. eexists. split; [vm_compute; reflexivity|]. split.
  - split; [cbn; lia|]. split; [reflexivity|discriminate].
  - vm_compute. discriminate.
Qed.

(** What one side encrypts, the other side with the same key decrypts to the same message, with the encryption
    flag set in its header. *)
Theorem C32_roundtrip : forall enc dec hmac kdf pairing store n l t es m t' m' u k tb mb,
  cipher enc dec -> history enc dec hmac kdf pairing store n l t es ->
  encrypt enc t m AesOk = (t', m', SmOk, u) -> 5 < m_len m -> m_max m <= length (m_data m) ->
  view es (m_eid m) = Active k -> is_established tb (m_eid mb) = true -> key_of tb (m_eid mb) = k ->
  m_len mb = m_len m' -> m_max mb <= length (m_data mb) -> m_len mb <= m_max mb ->
  firstn (m_len m') (m_data mb) = firstn (m_len m') (m_data m') ->
  exists mb', decrypt dec tb mb false = (mb', SmOk) /\ m_len mb' = m_len m /\
    firstn (m_len m) (m_data mb') = set_crypt (firstn (m_len m) (m_data m)).
Proof.
  intros until mb. intros C H E L LD V ES K ML MX MM ME. pose proof (history_inv _ _ _ _ _ _ _ _ _ _ H) as J.
  destruct (encrypt_ok _ _ _ _ _ _ _ E ltac:(unfold HEADER; lia)) as (i & iv & G & U & _).
  pose proof (view_of _ _ _ _ J (get_session_some _ _ _ G)) as W. rewrite U, V in W. injection W as W.
  unfold is_established in ES. unfold key_of in K. destruct (get_session tb (m_eid mb)) as [j|] eqn:GB; [|discriminate].
  apply (roundtrip enc dec t m t' m' u tb mb i j); auto.
  - intros k0 iv0 p. destruct (C k0 iv0 p) as (C1 & C2 & _). auto.
  - intros k0 iv0 p. apply C.
  - apply (i_ivs _ _ J).
  - congruence.
Qed.
Print Assumptions C32_roundtrip.
Example C32_roundtrip_ex : cipher ex_enc ex_dec /\
  let t := fst (ex_run (ex_open 10 1)) in
  exists t' m' u, encrypt ex_enc t (Msg (map N.of_nat (seq 1 60)) 7 60 10) AesOk = (t', m', SmOk, u) /\
  is_established t 10 = true /\ view (snd (ex_run (ex_open 10 1))) 10 = Active (key_of t 10) /\ m_len m' = 35.
Proof.
  split.
  - intros k iv p. unfold ex_enc, ex_dec. cbn [fst snd]. rewrite map_length. split; [auto|]. split.
    + rewrite firstn_length, app_length. unfold zeros. rewrite repeat_length. lia.
    + destruct (list_eq_dec _ _ _); [|congruence]. rewrite map_map. f_equal. rewrite <- (map_id p) at 2. apply map_ext.
      intros x. now rewrite N.lxor_assoc, N.lxor_nilpotent, N.lxor_0_r.
  - cbv zeta. eexists. eexists. eexists. split; [vm_compute; reflexivity|]. repeat split; vm_compute; reflexivity.
Qed.

(** Encryption writes only the message and the 28 bytes after it, never past the room there is. *)
Theorem C32_bounds : forall enc dec hmac kdf pairing store n l t es m o t' m' st u,
  cipher enc dec -> history enc dec hmac kdf pairing store n l t es ->
  encrypt enc t m o = (t', m', st, u) -> m_max m <= length (m_data m) ->
  length (m_data m') = length (m_data m) /\ m_max m' = m_max m /\ m_eid m' = m_eid m /\
  (m_len m' = m_len m \/ (m_len m' = m_len m + 28 /\ m_len m' <= m_max m)) /\
  (forall j, j < 3 \/ m_len m + 28 <= j -> nth j (m_data m') 0%N = nth j (m_data m) 0%N) /\
  (m_max m < m_len m + 28 -> m' = m) /\ (u = None -> m' = m).
Proof.
  intros until u. intros C H E LD. apply (encrypt_bounds enc t m o t' m' st u); auto.
  - intros k iv p. destruct (C k iv p) as (C1 & C2 & _). auto.
  - apply (i_ivs _ _ (history_inv _ _ _ _ _ _ _ _ _ _ H)).
Qed.
Print Assumptions C32_bounds.
Example C32_bounds_ex : let t := fst (ex_run (ex_open 10 1)) in
  snd (fst (encrypt ex_enc t (Msg (repeat 7%N 38) 10 38 10) AesOk)) = SmOk /\
  snd (fst (encrypt ex_enc t (Msg (repeat 7%N 38) 11 38 10) AesOk)) = SmBufTooSmall.
Proof. split; vm_compute; reflexivity. Qed.

(** A request with an HMAC removes an established session only if the HMAC is right: over the session key, with
    the session's HMAC key. *)
Theorem C32_removal_needs_hmac : forall hmac t eid i mac fault t',
  (forall k d, length (hmac k d) = 32 /\ bytes_ok (hmac k d)) -> bytes_ok mac ->
  get_session t eid = Some i -> usable (e_state (at_ t i)) = true ->
  reset_session hmac t eid (Some mac) fault = (t', SmOk) -> mac = hmac (e_hmac (at_ t i)) (e_key (at_ t i)).
Proof.
  intros hmac t eid i mac fault t' HL B G U H. unfold reset_session in H. rewrite G, U in H. cbv zeta in H.
  destruct (check_hmac hmac (e_hmac (at_ t i)) (e_key (at_ t i)) mac fault) eqn:C; try discriminate.
  destruct (HL (e_hmac (at_ t i)) (e_key (at_ t i))). apply (check_hmac_ok hmac _ _ _ fault); auto.
Qed.
Print Assumptions C32_removal_needs_hmac.
Example C32_removal_ex : let t := fst (ex_run (ex_open 10 1)) in
  snd (reset_session ex_hmac t 10 (Some (ex_hmac (e_hmac (at_ t 0)) (e_key (at_ t 0)))) false) = SmOk /\
  snd (reset_session ex_hmac t 10 (Some (repeat 0%N 32)) false) = SmNotPermitted.
Proof. split; vm_compute; reflexivity. Qed.

(** Pairing works only for listed peers with an established session and the right HMAC of the pairing key, which is
    the stored one or is derived from the session key; the new session key is derived from both. *)
Theorem C32_pairing : forall hmac kdf pairing store t eid mac v t' saved,
  (forall k d, length (hmac k d) = 32 /\ bytes_ok (hmac k d)) -> bytes_ok mac ->
  setup_paired hmac kdf pairing store t eid mac v = (t', SmOk, saved) ->
  exists i pk, get_session t eid = Some i /\ usable (e_state (at_ t i)) = true /\ In eid pairing /\
    mac = hmac (e_hmac (at_ t i)) pk /\
    t' = upd t i (set_e_state (set_e_key (at_ t i) (kdf pk (e_key (at_ t i)) [])) Paired) /\
    match p_load v with
    | Loaded k => pk = k ++ zeros (32 - length k) /\ saved = None
    | NoKey => pk = kdf (e_key (at_ t i)) PAIRING [] /\ saved = Some pk
    | LoadError => False
    end.
Proof.
  intros hmac kdf pairing store t eid mac v t' saved HL B H. unfold setup_paired in H. cbv zeta in H.
  destruct store; [cbn [negb] in H|discriminate]. destruct (get_session t eid) as [i|] eqn:G; [|discriminate].
  destruct (usable (e_state (at_ t i))) eqn:U; [cbn [negb] in H|discriminate].
  destruct (existsb (N.eqb eid) pairing) eqn:P; [cbn [negb] in H|discriminate].
  apply existsb_exists in P. destruct P as (x & P & E). apply N.eqb_eq in E. subst x.
  assert (F: forall pk (generated : bool),
    (match check_hmac hmac (e_hmac (at_ t i)) pk mac (negb (p_hmac v)) with
     | SmOk =>
        if negb (p_kdf2 v) then (upd t i (set_e_key (at_ t i) (run_kdf kdf pk (e_key (at_ t i)) [] (p_kdf2 v))), SmCrypto, None)
        else if generated && negb (p_save v)
             then (upd t i (set_e_key (at_ t i) (run_kdf kdf pk (e_key (at_ t i)) [] (p_kdf2 v))), SmKeystore, None)
             else (upd t i (set_e_state (set_e_key (at_ t i) (kdf pk (e_key (at_ t i)) [])) Paired), SmOk, if generated then Some pk else None)
     | st => (t, st, None)
     end) = (t', SmOk, saved) ->
    mac = hmac (e_hmac (at_ t i)) pk /\
    t' = upd t i (set_e_state (set_e_key (at_ t i) (kdf pk (e_key (at_ t i)) [])) Paired) /\
    saved = if generated then Some pk else None).
  { intros pk generated Q. destruct (check_hmac hmac (e_hmac (at_ t i)) pk mac (negb (p_hmac v))) eqn:C; try discriminate.
    destruct (HL (e_hmac (at_ t i)) pk) as (L1 & L2).
    pose proof (check_hmac_ok hmac _ _ _ _ L1 L2 B C) as (M & _). split; [exact M|].
    destruct (negb (p_kdf2 v)); [discriminate|]. destruct (generated && negb (p_save v)); [discriminate|].
    injection Q as <- <-. auto. }
  destruct (p_load v) as [| |k]; [discriminate| |].
  - destruct (p_kdf1 v); [|discriminate]. exists i, (kdf (e_key (at_ t i)) PAIRING []).
    destruct (F _ true H) as (F1 & F2 & F3). auto 10.
  - destruct (32 <? length k); [discriminate|]. exists i, (k ++ zeros (32 - length k)).
    destruct (F _ false H) as (F1 & F2 & F3). auto 10.
Qed.
Print Assumptions C32_pairing.
Example C32_pairing_ex : let t := fst (ex_run (ex_open 10 1)) in
  snd (fst (setup_paired ex_hmac ex_kdf [10]%N true t 10 (ex_hmac (e_hmac (at_ t 0)) (repeat 6%N 32)) (PairEnv (Loaded (repeat 6%N 32)) true true true true))) = SmOk /\
  snd (fst (setup_paired ex_hmac ex_kdf [11]%N true t 10 (ex_hmac (e_hmac (at_ t 0)) (repeat 6%N 32)) (PairEnv (Loaded (repeat 6%N 32)) true true true true))) = SmPairingNotSupported.
Proof. split; vm_compute; reflexivity. Qed.

(** A peer that asks whether the session is still there gets the HMAC of its nonce, under the HMAC key of its own
    session, exactly when a key was agreed for it; a peer without one gets nothing. *)
Theorem C32_sync : forall enc dec hmac kdf pairing store n l t es eid nonce room fault st out,
  history enc dec hmac kdf pairing store n l t es -> session_sync hmac t eid nonce room fault = (st, out) ->
  (st = SmOk -> exists i k, view es eid = Active k /\ session_at t i eid /\ out = hmac (e_hmac (at_ t i)) nonce) /\
  (st <> SmOk -> out = []) /\
  (st = SmUnexpectedEid <-> view es eid = NoSession) /\ (st = SmNotEstablished <-> view es eid = Pending) /\
  (fault = false -> 32 <= room -> (exists k, view es eid = Active k) -> st = SmOk).
Proof.
  intros until out. intros H S. pose proof (history_inv _ _ _ _ _ _ _ _ _ _ H) as J. unfold session_sync in S.
  destruct (get_session t eid) as [i|] eqn:G.
  - apply get_session_some in G. rewrite (view_of _ _ _ _ J G).
    destruct (usable (e_state (at_ t i))) eqn:U; cbn [negb] in S.
    + destruct (fault || (room <? 32)) eqn:F; injection S as <- <-.
      * repeat split; try discriminate; try congruence. intros -> R. exfalso. cbn [orb] in F. lia.
      * repeat split; try discriminate; try congruence. intros _. eauto.
    + injection S as <- <-. repeat split; try discriminate; try congruence. intros _ _ (k & K). discriminate.
  - injection S as <- <-. pose proof (i_view _ _ J eid) as R. pose proof (get_session_none _ _ G) as Nn.
    destruct (view es eid) as [| |k] eqn:V.
    + repeat split; try discriminate; try congruence. intros _ _ (k & K). discriminate.
    + exfalso. destruct R as (j & A & _). exact (Nn _ A).
    + exfalso. destruct R as (j & A & _). exact (Nn _ A).
Qed.
Print Assumptions C32_sync.
Example C32_sync_ex : let t := fst (ex_run (ex_open 10 1 ++ [OpAdd 11 [] []])) in
  fst (session_sync ex_hmac t 10 [1; 2]%N 32 false) = SmOk /\ fst (session_sync ex_hmac t 11 [1; 2]%N 32 false) = SmNotEstablished /\
  fst (session_sync ex_hmac t 12 [1; 2]%N 32 false) = SmUnexpectedEid /\ fst (session_sync ex_hmac t 10 [1; 2]%N 31 false) = SmCrypto.
Proof. repeat split; vm_compute; reflexivity. Qed.

(** Refutations. *)

(** When the hash engine fails at the end of pairing the session stays established, with an all-zero key: after two
    such failures two sessions use the same key and IV although all keys agreed were different. *)
Theorem C32_zero_key_refuted : exists l t es, history ex_enc ex_dec ex_hmac ex_kdf [10; 11]%N true 2 l t es /\
  NoDup (flat_map (fun e => match e with Agreed _ k => [k] | _ => [] end) es) /\
  view es 10%N = Active (zeros 32) /\ view es 11%N = Active (zeros 32) /\ ~ NoDup (uses es).
Proof.
  exists (ex_open 10 1 ++ ex_open 11 2 ++ [ex_pair 10 0 false; ex_pair 11 1 false; OpEncrypt (ex_msg 10) AesOk; OpEncrypt (ex_msg 11) AesOk]).
  eexists. eexists. split; [vm_compute; reflexivity|]. split; [vm_compute; repeat constructor; cbn; intuition discriminate|].
  split; [vm_compute; reflexivity|]. split; [vm_compute; reflexivity|].
  intros ND. vm_compute in ND. inversion ND as [|x y N1 N2]. apply N1. left. reflexivity.
Qed.
Print Assumptions C32_zero_key_refuted.

(** A pairing that fails, because the key could not be stored, still replaces the session key. *)
Theorem C32_failed_pairing_rekeys_refuted : exists l t es mac v t' st sv,
  history ex_enc ex_dec ex_hmac ex_kdf [10; 11]%N true 2 l t es /\
  setup_paired ex_hmac ex_kdf [10; 11]%N true t 10 mac v = (t', st, sv) /\ st <> SmOk /\
  is_established t' 10 = true /\ key_of t' 10 <> key_of t 10.
Proof.
  exists (ex_open 10 1). eexists. eexists.
  exists (let t := fst (ex_run (ex_open 10 1)) in ex_mac t 0 (ex_kdf (e_key (at_ t 0)) PAIRING [])), (PairEnv NoKey true true true false).
  eexists. eexists. eexists. split; [vm_compute; reflexivity|]. split; [vm_compute; reflexivity|].
  split; [discriminate|]. split; vm_compute; [reflexivity|discriminate].
Qed.
Print Assumptions C32_failed_pairing_rekeys_refuted.

(** The same message is accepted any number of times, and the device accepts its own messages as the peer's. *)
Theorem C32_replay_refuted : exists l t es m t' m' u mb,
  history ex_enc ex_dec ex_hmac ex_kdf [10; 11]%N true 2 l t es /\
  encrypt ex_enc t m AesOk = (t', m', SmOk, u) /\
  decrypt ex_dec t' m' false = (mb, SmOk) /\
  snd (ex_run (l ++ [OpEncrypt m AesOk; OpDecrypt m' false; OpDecrypt m' false])) =
    es ++ [Encrypted 10 (key_of t 10) (e_iv (at_ t' 0)); Accepted 10 (key_of t 10); Accepted 10 (key_of t 10)].
Proof.
  exists (ex_open 10 1). eexists. eexists. exists (Msg (map N.of_nat (seq 1 60)) 7 60 10). eexists. eexists. eexists. eexists.
  split; [vm_compute; reflexivity|]. split; [vm_compute; reflexivity|]. split; [vm_compute; reflexivity|].
  vm_compute. reflexivity.
Qed.
Print Assumptions C32_replay_refuted.

(** A request that is only a header is encrypted, but never decrypted again. *)
Theorem C32_header_only_refuted : forall enc dec hmac kdf pairing store n l t es m t' m' u,
  cipher enc dec -> history enc dec hmac kdf pairing store n l t es ->
  encrypt enc t m AesOk = (t', m', SmOk, u) -> m_len m = 5 -> forall tb fault, decrypt dec tb m' fault = (m', SmMalformed).
Proof.
  intros until u. intros C H E L tb fault. destruct (encrypt_ok _ _ _ _ _ _ _ E ltac:(unfold HEADER; lia)) as (i & iv & _ & _ & _ & _ & _ & _ & M).
  unfold decrypt. assert (m_len m' = 33) as -> by (rewrite M; cbn [m_len]; lia). reflexivity.
Qed.
Print Assumptions C32_header_only_refuted.
Example C32_header_only_ex : let t := fst (ex_run (ex_open 10 1)) in
  snd (fst (encrypt ex_enc t (Msg (repeat 7%N 33) 5 33 10) AesOk)) = SmOk.
Proof. vm_compute. reflexivity. Qed.

(** A stored pairing key longer than 32 bytes is written past the end of the array for it. *)
Theorem C32_long_pairing_key_refuted : forall hmac kdf pairing t eid i mac v k,
  get_session t eid = Some i -> usable (e_state (at_ t i)) = true -> In eid pairing ->
  p_load v = Loaded k -> 32 < length k -> snd (fst (setup_paired hmac kdf pairing true t eid mac v)) = SmOverflow.
Proof.
  intros hmac kdf pairing t eid i mac v k G U P L K. unfold setup_paired. cbn [negb]. rewrite G, U. cbn [negb].
  assert (existsb (N.eqb eid) pairing = true) as -> by (apply existsb_exists; exists eid; split; [auto|apply N.eqb_refl]).
  cbn [negb]. rewrite L. destruct (Nat.ltb_spec 32 (length k)); [reflexivity|lia].
Qed.
Print Assumptions C32_long_pairing_key_refuted.

(** * C40 *)

(** Unless the key or the signature ends within two bytes of the end of the buffer, the response to a key exchange
    stays within the room for it, whatever fails. *)
Theorem C40_response_fits : forall hmac kdf t m v t' m' st n,
  (N.of_nat (m_max m) < 2 ^ 32)%N -> 9 <= m_max m ->
  (forall der, x_der v = Some der -> m_max m <> 9 + length der + 1) ->
  (forall der sg, x_der v = Some der -> x_sig v = Some sg ->
     m_max m <> 9 + length der + 2 + length sg /\ m_max m <> 9 + length der + 2 + length sg + 1) ->
  establish hmac kdf t m v = (t', m', st, n) -> n <= m_max m.
Proof. intros hmac kdf t m v t' m' st n A B C D. exact (establish_bounds hmac kdf t m v t' m' st n A C D B). Qed.
Print Assumptions C40_response_fits.

(** A session is established only when it was set up, with keys derived from the shared secret and the nonces of the
    setup; the response holds the public key, the signature and the HMAC of the certificate, and nothing else is written. *)
Theorem C40_response : forall hmac kdf t m v t' m' n,
  (forall k d, length (hmac k d) = 32) ->
  establish hmac kdf t m v = (t', m', SmOk, n) -> n <= length (m_data m) ->
  exists i der sg secret,
    session_at t i (m_eid m) /\ e_state (at_ t i) = Setup /\ x_der v = Some der /\ x_sig v = Some sg /\ x_secret v = Some secret /\
    (let e := at_ t i in
     t' = upd t i (Entry (kdf secret (e_dnonce e) (e_cnonce e)) (kdf secret (e_cnonce e) (e_dnonce e)) (e_dnonce e) (e_cnonce e)
                         (e_eid e) Established (e_iv e))) /\
    let body := exchange_body der sg (hmac (e_hmac (at_ t' i)) (x_cert v)) in
    m_len m' = 6 + length body /\ window 6 (length body) (m_data m') = body /\ length (m_data m') = length (m_data m) /\
    (forall j, j < 6 \/ m_len m' <= j -> nth j (m_data m') 0%N = nth j (m_data m) 0%N).
Proof.
  intros hmac kdf t m v t' m' n HL H LN.
  destruct (establish_ok _ _ _ _ _ _ _ _ H) as (i & der & sg & secret & G & XD & XS & XE & ST & T & _).
  destruct (establish_layout _ _ _ _ _ _ _ _ HL H LN) as (i0 & der0 & sg0 & G0 & XD0 & XS0 & B).
  assert (i0 = i) by congruence. assert (der0 = der) by congruence. assert (sg0 = sg) by congruence. subst i0 der0 sg0.
  exists i, der, sg, secret. split; [now apply get_session_some|]. split; [auto|]. split; [auto|]. split; [auto|]. split; [auto|].
  split; [exact T|]. cbv zeta in B |- *. unfold exchange_body. rewrite HL. exact B.
Qed.
Print Assumptions C40_response.
Example C40_response_ex : exists t' m',
  establish ex_hmac ex_kdf (fst (ex_run [OpAdd 10 (repeat 3%N 32) (repeat 4%N 32)])) (ex_msg 10) (ex_env 1) = (t', m', SmOk, 50) /\
  50 <= length (m_data (ex_msg 10)) /\ 50 <= m_max (ex_msg 10).
Proof. eexists. eexists. split; [vm_compute; reflexivity|]. cbn. lia. Qed.

(** With less room than the fixed part of the response, the limit for the key wraps around and the response is
    written past the end of the buffer; so it is if the key or the signature ends just before the end of the buffer. *)
Definition ex_setup : table := fst (ex_run [OpAdd 10 (repeat 3%N 32) (repeat 4%N 32)]).
Theorem C40_small_buffer_refuted : exists m t' m' n,
  establish ex_hmac ex_kdf ex_setup m (ex_env 1) = (t', m', SmOk, n) /\ m_max m = 8 /\ 8 < n.
Proof. exists (Msg (repeat 0%N 80) 10 8 10). eexists. eexists. exists 50. split; [vm_compute; reflexivity|cbn; lia]. Qed.
Print Assumptions C40_small_buffer_refuted.
Theorem C40_key_at_end_refuted : exists m t' m' n,
  establish ex_hmac ex_kdf ex_setup m (ex_env 1) = (t', m', SmOk, n) /\ m_max m = 13 /\ 13 < n.
Proof. exists (Msg (repeat 0%N 80) 10 13 10). eexists. eexists. exists 50. split; [vm_compute; reflexivity|cbn; lia]. Qed.
Print Assumptions C40_key_at_end_refuted.
Theorem C40_signature_at_end_refuted : forall r, r = 16 \/ r = 17 -> exists m t' m' n,
  establish ex_hmac ex_kdf ex_setup m (ex_env 1) = (t', m', SmOk, n) /\ m_max m = r /\ r < n.
Proof.
  intros r [->| ->].
  - exists (Msg (repeat 0%N 80) 10 16 10). eexists. eexists. exists 50. split; [vm_compute; reflexivity|cbn; lia].
  - exists (Msg (repeat 0%N 80) 10 17 10). eexists. eexists. exists 50. split; [vm_compute; reflexivity|cbn; lia].
Qed.
Print Assumptions C40_signature_at_end_refuted.
