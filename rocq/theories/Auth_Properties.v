(** Authorization properties (C33). *)
From Coq Require Import List NArith Lia Bool Arith.
From Coq Require Import ZifyBool ZifyNat ZifyN.
From Verif Require Import Base BufferUtil_Model KeyWrap_Proofs Heap_Links_Proofs Auth_Model Auth_Spec Auth_Proofs.
Import ListNotations.

(** Any history of requests from an initialised token handler, for any authority, list of operations, and outcome of
    the random generator, the engines and the clock. *)
Definition history (sig_ok : list N -> list N -> bool) (c : cfg) (ops : list oper) (memory : list N) (l : list op) (s : tok) (now : N)
  (es : list event) : Prop :=
  0 < c_nonce c /\ c_data c + c_nonce c + c_sig c <= length memory /\ bytes_ok memory /\ Forall op_ok l /\
  run sig_ok c ops (init_tok c memory) 0 l = (s, now, es).

Lemma init_ok : forall c memory, c_data c + c_nonce c + c_sig c <= length memory -> bytes_ok memory -> tok_ok c (init_tok c memory).
Proof.
  intros c memory L B. constructor; unfold init_tok, total; cbn [k_buf].
  - rewrite firstn_length. lia.
  - now apply KeyWrap_Proofs.bytes_ok_firstn.
Qed.

Lemma history_holds : forall sig_ok c ops memory l s now es, history sig_ok c ops memory l s now es ->
  tok_ok c s /\ holds c s (active ops es).
Proof.
  intros sig_ok c ops memory l s now es (NP & L & B & OK & H).
  exact (run_holds sig_ok c ops NP l _ _ _ _ [] es (init_ok c memory L B) eq_refl OK H).
Qed.

(** The request of an event was made in a state that agrees with the events before it. *)
Lemma history_split : forall sig_ok c ops memory l s now es e1 id d r a u e2, history sig_ok c ops memory l s now es ->
  es = e1 ++ Event id d r a u :: e2 ->
  exists g v s1 s2, tok_ok c s1 /\ holds c s1 (active ops e1) /\ op_ok (Request id d g v) /\
    authorize_operation sig_ok c ops s1 id d g v u = (s2, r, a).
Proof.
  intros until e2. intros (NP & L & B & OK & H) E.
  destruct (run_split sig_ok c ops _ _ _ _ _ _ _ _ _ _ _ _ _ H OK E) as (l1 & g & v & s1 & s2 & O1 & O2 & R & A).
  exists g, v, s1, s2.
  destruct (history_holds sig_ok c ops memory l1 s1 u e1 (conj NP (conj L (conj B (conj O1 R))))). auto.
Qed.

(** An operation that needs a challenge is authorised only by data that holds the active, unexpired token and the
    authority's signature of everything before the signature. *)
Theorem C33_granted : forall sig_ok c ops memory l s now es e1 id d a u e2 h,
  history sig_ok c ops memory l s now es -> es = e1 ++ Event id d (Some RAuthorized) a u :: e2 -> challenged ops id h ->
  exists data token t0, d = Some data /\ active ops e1 = Some (token, t0) /\
    well_formed (h_fmt h) data /\ endorsed sig_ok (h_fmt h) token data /\
    (c_validity c = 0%N \/ (u < t0 + c_validity c)%N).
Proof.
  intros until h. intros H E (o & OP & OA). destruct (history_split _ _ _ _ _ _ _ _ _ _ _ _ _ _ _ H E) as (g & v & s1 & s2 & T & P & (OD & _) & A).
  unfold authorize_operation in A. unfold operation in OP. rewrite OP, OA in A. cbn [authorize] in A. unfold challenge_authorize in A.
  destruct d as [d|].
  2: { destruct (new_token c s1 _ g u) as [s3 []]; discriminate. }
  destruct (token_offset (h_fmt h) d) as [q|] eqn:TO; [|discriminate].
  destruct (format_offset _ _ _ TO) as (Q1 & Q2 & Q3). rewrite Q2 in A. subst q.
  destruct (verify_data sig_ok c s1 d (token_at (h_fmt h)) (follows (h_fmt h) d) v u) eqn:V; try discriminate.
  assert (KL: k_len s1 <= length (k_buf s1)).
  { destruct (active ops e1) as [[t t0]|]; cbn [holds] in P; [|lia].
    destruct P as (P1 & P2 & _). rewrite P1 in P2 |- *. rewrite P2 at 1. rewrite firstn_length. lia. }
  apply verify_valid in V; auto. destruct V as (V1 & V2 & V3 & V4 & V5 & _).
  destruct (active ops e1) as [[t t0]|]; cbn [holds] in P; [|contradiction].
  destruct P as (P1 & P2 & P3 & P4). exists d, t, t0. split; [auto|]. split; [auto|]. split; [auto|]. split.
  - exists (token_at (h_fmt h) + length t + follows (h_fmt h) d). rewrite <- P1. split; [auto|]. split; [auto|]. split; [|auto].
    rewrite V3. auto.
  - destruct (N.eq_dec (c_validity c) 0); [auto|]. right. destruct V5 as [V5|(V5 & _)]; [contradiction|]. rewrite <- P4; auto.
Qed.
Print Assumptions C33_granted.

(** Such data is always accepted, if the clock and the engines work. *)
Theorem C33_accepted : forall sig_ok c ops memory l s now es id h data token t0 g v,
  history sig_ok c ops memory l s now es -> challenged ops id h -> bytes_ok data ->
  active ops es = Some (token, t0) -> well_formed (h_fmt h) data -> endorsed sig_ok (h_fmt h) token data ->
  (c_validity c = 0%N \/ (now < t0 + c_validity c)%N) -> r_clock v = true -> r_engine v = true ->
  snd (fst (authorize_operation sig_ok c ops s id (Some data) g v now)) = Some RAuthorized.
Proof.
  intros until v. intros H (o & OP & OA) BD AC WF (n & N1 & N2 & N3 & N4) EX RC RE.
  destruct (history_holds _ _ _ _ _ _ _ _ H) as (T & P). rewrite AC in P. cbn [holds] in P. destruct P as (P1 & P2 & P3 & P4).
  unfold authorize_operation. unfold operation in OP. rewrite OP, OA. cbn [authorize challenge_authorize].
  destruct (format_complete _ _ WF) as (-> & ->).
  assert (NP: 0 < c_nonce c) by apply H.
  assert (KL: k_len s <= length (k_buf s)) by (rewrite P1 in P2 |- *; rewrite P2 at 1; rewrite firstn_length; lia).
  assert (V: verify_data sig_ok c s data (token_at (h_fmt h)) (follows (h_fmt h) data) v now = Valid).
  { apply verify_valid; auto. rewrite P1. rewrite <- N1. split; [lia|]. split; [lia|]. split; [rewrite N3; rewrite <- P1; exact P2|].
    split; [exact N4|]. split; [|exact RE]. destruct EX as [EX|EX]; [auto|]. destruct (N.eq_dec (c_validity c) 0); [auto|].
    right. rewrite P4; auto. }
  rewrite V. reflexivity.
Qed.
Print Assumptions C33_accepted.

(** What a token is: the operation's tag, zeros up to the room for it, a nonce and the device's signature. *)
Theorem C33_token : forall sig_ok c ops memory l s now es id d a u t,
  history sig_ok c ops memory l s now es -> In (Event id d (Some (RChallenge t)) a u) es ->
  exists h nonce sg, challenged ops id h /\ d = None /\ a = Challenge t /\ length nonce = c_nonce c /\ length sg <= c_sig c /\
    let tag := match h_tag h with Some x => le32 x | None => [] end in
    length tag <= c_data c /\ t = tag ++ repeat 0%N (c_data c - length tag) ++ nonce ++ sg.
Proof.
  intros until t. intros H I0. destruct (in_split _ _ I0) as (e1 & e2 & E).
  destruct (history_split _ _ _ _ _ _ _ _ _ _ _ _ _ _ _ H E) as (g & v & s1 & s2 & T & P & (OD & OR & OS) & A).
  unfold authorize_operation in A. destruct (find (fun o => (o_id o =? id)%N) ops) as [o|] eqn:F; [|discriminate].
  destruct (authorize sig_ok c (o_auth o) s1 d g v u) as [s3 rep] eqn:AU. assert (rep = RChallenge t) by congruence. subst rep.
  assert (a = Challenge t) by congruence. clear A.
  destruct (o_auth o) as [| | |h|] eqn:OA; cbn [authorize] in AU; try discriminate.
  2: { unfold global_authorize in AU. repeat match type of AU with context [match ?x with _ => _ end] => destruct x; try discriminate end. }
  unfold challenge_authorize in AU. destruct d as [d|].
  { destruct (token_offset (h_fmt h) d); [|discriminate]. destruct (aad_length (h_fmt h) d); [|discriminate].
    destruct (verify_data sig_ok c s1 d n n0 v u); discriminate. }
  destruct (new_token c s1 (match h_tag h with Some x => le32 x | None => [] end) g u) as [s4 gn] eqn:G.
  assert (BD: bytes_ok (match h_tag h with Some x => le32 x | None => [] end)) by (destruct (h_tag h); [apply bytes_ok_le32|constructor]).
  pose proof (new_token_spec _ _ _ _ _ _ _ T BD OR OS G) as Q. destruct gn as [| |t']; try discriminate.
  assert (t' = t) by congruence. subst t'. destruct Q as (_ & Q2 & _ & _ & _ & rnd & sg & _ & _ & Q6).
  exists h, (firstn (c_nonce c) (rnd ++ repeat 0%N (c_nonce c))), (firstn (c_sig c) sg).
  split; [exists o; auto|]. split; [auto|]. split; [auto|].
  split; [rewrite firstn_length, app_length, repeat_length; lia|]. split; [rewrite firstn_length; lia|]. split; [exact Q2|exact Q6].
Qed.
Print Assumptions C33_token.

(** The part of a token that is the nonce. *)
Definition nonce_of (c : cfg) (t : list N) : list N := window (c_data c) (c_nonce c) t.

Lemma active_snoc : forall ops es e, active ops (es ++ [e]) = observe ops (active ops es) e.
Proof. intros. unfold active. now rewrite fold_left_app. Qed.

Lemma active_issued : forall ops es2 es1 t t0, active ops (es1 ++ es2) = Some (t, t0) ->
  active ops es1 = Some (t, t0) \/ In t (issued es2).
Proof.
  induction es2 as [|e es2 IH] using rev_ind; intros es1 t t0 H.
  - rewrite app_nil_r in H. auto.
  - rewrite app_assoc, active_snoc in H. unfold issued. rewrite flat_map_app. fold (issued es2).
    assert (C: active ops (es1 ++ es2) = Some (t, t0) \/ In t (issued [e])).
    { destruct e as [id d [r|] a u]; cbn [observe] in H; [|auto]. destruct (operation ops id) as [o|]; [|auto].
      destruct (o_auth o); auto; destruct d; auto; destruct r; auto; try discriminate; injection H as -> _; right; left; reflexivity. }
    destruct C as [C|C]; [|right; apply in_or_app; auto]. destruct (IH _ _ _ C); [auto|]. right. apply in_or_app. auto.
Qed.

(** If the nonces of the tokens handed out are all different, no data is accepted twice. *)
Theorem C33_single_use : forall sig_ok c ops memory l s now es e1 e2 e3 id1 id2 data a1 a2 u1 u2 h1 h2,
  history sig_ok c ops memory l s now es -> NoDup (map (nonce_of c) (issued es)) ->
  challenged ops id1 h1 -> challenged ops id2 h2 -> h_fmt h1 = h_fmt h2 ->
  es = e1 ++ Event id1 (Some data) (Some RAuthorized) a1 u1 :: e2 ++ Event id2 (Some data) (Some RAuthorized) a2 u2 :: e3 -> False.
Proof.
  intros until h2. intros H ND C1 C2 F E.
  destruct (C33_granted _ _ _ _ _ _ _ _ e1 id1 (Some data) a1 u1 (e2 ++ Event id2 (Some data) (Some RAuthorized) a2 u2 :: e3) h1 H E C1)
    as (d1 & t1 & x1 & D1 & A1 & _ & (n1 & _ & N1 & W1 & _) & _).
  assert (E': es = (e1 ++ Event id1 (Some data) (Some RAuthorized) a1 u1 :: e2) ++ Event id2 (Some data) (Some RAuthorized) a2 u2 :: e3)
    by (rewrite E, <- app_assoc; reflexivity).
  destruct (C33_granted _ _ _ _ _ _ _ _ _ id2 (Some data) a2 u2 e3 h2 H E' C2)
    as (d2 & t2 & x2 & D2 & A2 & _ & (n2 & _ & N2 & W2 & _) & _).
  injection D1 as <-. injection D2 as <-.
  assert (I1: In t1 (issued e1)).
  { destruct (active_issued ops e1 [] t1 x1 A1) as [Q|Q]; [discriminate|exact Q]. }
  assert (I2: In t2 (issued e2)).
  { rewrite (app_assoc e1 [Event id1 (Some data) (Some RAuthorized) a1 u1] e2 : e1 ++ _ :: e2 = _) in A2.
    destruct (active_issued ops e2 _ t2 x2 A2) as [Q|Q]; [|exact Q]. rewrite active_snoc in Q.
    destruct C1 as (o & O1 & O2). cbn [observe] in Q. rewrite O1, O2 in Q. discriminate. }
  assert (LT: forall t, In t (issued es) -> c_data c + c_nonce c <= length t).
  { intros t I0. unfold issued in I0. apply in_flat_map in I0. destruct I0 as ([id d r a u] & I0 & J).
    destruct r as [[t'| | | |]|]; try contradiction. destruct J as [<-|[]].
    destruct (C33_token _ _ _ _ _ _ _ _ _ _ _ _ _ H I0) as (h & nn & sg & _ & _ & _ & L1 & _ & L2 & ->).
    rewrite !app_length, repeat_length. lia. }
  assert (IS: issued es = issued e1 ++ issued e2 ++ issued e3).
  { rewrite E. unfold issued. rewrite flat_map_app. cbn [flat_map app]. now rewrite flat_map_app. }
  assert (L1: c_data c + c_nonce c <= length t1) by (apply LT; rewrite IS; apply in_or_app; auto).
  assert (L2: c_data c + c_nonce c <= length t2) by (apply LT; rewrite IS; apply in_or_app; right; apply in_or_app; auto).
  assert (NE: nonce_of c t1 = nonce_of c t2).
  { unfold nonce_of. rewrite <- W1, <- W2, <- F. unfold window. rewrite !skipn_firstn_comm, !firstn_firstn.
    rewrite !Nat.min_l by lia. reflexivity. }
  rewrite IS, !map_app in ND. apply Heap_Links_Proofs.NoDup_app_iff in ND. destruct ND as (_ & _ & ND).
  apply (ND (nonce_of c t1)); [now apply in_map|]. rewrite NE. apply in_or_app. left. now apply in_map.
Qed.
Print Assumptions C33_single_use.

(** An operation is given a context only if its authorization agreed and its data was found valid; operations without
    authorization, forbidden and unknown ones never are; globally signed data must be signed by the authority. *)
Theorem C33_context : forall sig_ok c ops memory l s now es id d r x b u,
  history sig_ok c ops memory l s now es -> In (Event id d r (Context x b) u) es ->
  r = Some RAuthorized /\
  exists o, operation ops id = Some o /\ (forall f, o_exec o = Some f -> f x = true) /\
    match o_auth o with
    | NoAuth | Disallowed => False
    | Allowed => True
    | Challenged _ => exists data, d = Some data
    | Global => exists data n, d = Some data /\
        n = 4 + N.to_nat (le_value (window 0 2 data)) + N.to_nat (le_value (window 2 2 data)) /\ n < length data /\
        sig_ok (firstn n data) (skipn n data) = true
    end.
Proof.
  intros until u. intros H I0. destruct (in_split _ _ I0) as (e1 & e2 & E).
  destruct (history_split _ _ _ _ _ _ _ _ _ _ _ _ _ _ _ H E) as (g & v & s1 & s2 & T & P & _ & A).
  assert (RA: r = Some RAuthorized).
  { unfold authorize_operation in A. destruct (find (fun o => (o_id o =? id)%N) ops) as [o|]; [|discriminate].
    destruct (authorize sig_ok c (o_auth o) s1 d g v u) as [s3 rep]. assert (r = Some rep) by congruence. subst r.
    destruct rep; try discriminate. reflexivity. }
  split; [exact RA|]. subst r. unfold authorize_operation in A. unfold operation.
  destruct (find (fun o => (o_id o =? id)%N) ops) as [o|] eqn:F; [|discriminate]. exists o. split; [auto|].
  destruct (authorize sig_ok c (o_auth o) s1 d g v u) as [s3 rep] eqn:AU. assert (rep = RAuthorized) by congruence. subst rep.
  split.
  - intros f OE. rewrite OE in A. destruct (match d with Some d0 => match o_data o with Some f0 => get_aad f0 d0 | None => Some [] end | None => Some [] end) as [y|]; [|discriminate].
    destruct (f y) eqn:FY; [|discriminate]. injection A as _ -> _. exact FY.
  - destruct (o_auth o) as [| | |h|] eqn:OA; cbn [authorize] in AU; try discriminate; auto.
    + destruct d; [eauto|]. unfold challenge_authorize in AU. destruct (new_token c s1 _ g u) as [s4 []]; discriminate.
    + assert (GA: global_authorize sig_ok d v = RAuthorized) by congruence. unfold global_authorize in GA. destruct d as [d|]; [|discriminate].
      destruct (length d =? 0); [discriminate|]. unfold signature_start in GA. destruct (header_ok d) eqn:HO; [|discriminate]. cbv zeta in GA.
      destruct (Nat.eqb_spec (length d) (4 + word d 0 + word d 2)); [discriminate|].
      destruct (r_engine v); [cbn [negb] in GA|discriminate].
      exists d, (4 + word d 0 + word d 2). split; [auto|]. split; [reflexivity|]. unfold header_ok in HO. split; [lia|].
      destruct (sig_ok _ _); [reflexivity|discriminate].
Qed.
Print Assumptions C33_context.

(** If the header of the data gives the length of the token right, the data handed to the operation is the part between
    the token and the signature, which the authority signed. *)
Theorem C33_signed_data : forall sig_ok c ops memory l s now es e1 id data x b u e2 h o,
  history sig_ok c ops memory l s now es -> es = e1 ++ Event id (Some data) (Some RAuthorized) (Context x b) u :: e2 ->
  operation ops id = Some o -> o_auth o = Challenged h -> h_fmt h = WithAad -> o_data o = Some WithAad ->
  (forall token t0, active ops e1 = Some (token, t0) -> N.to_nat (le_value (window 0 2 data)) = length token) ->
  exists n token t0, active ops e1 = Some (token, t0) /\ sig_ok (firstn n data) (skipn n data) = true /\
    firstn n data = firstn 4 data ++ token ++ x.
Proof.
  intros until o. intros H E OP OA FM OD LN.
  destruct (C33_granted _ _ _ _ _ _ _ _ _ _ _ _ _ _ _ H E (ex_intro _ o (conj OP OA))) as (d1 & t & t0 & D1 & AC & WF & (n & N1 & N2 & W & S) & _).
  injection D1 as <-. exists n, t, t0. split; [auto|]. split; [auto|].
  destruct (history_split _ _ _ _ _ _ _ _ _ _ _ _ _ _ _ H E) as (g & v & s1 & s2 & _ & _ & _ & A).
  unfold authorize_operation in A. unfold operation in OP. rewrite OP in A. destruct (authorize sig_ok c (o_auth o) s1 (Some data) g v u) as [s3 rep].
  assert (rep = RAuthorized) by congruence. subst rep. rewrite OD in A. cbn [get_aad] in A.
  rewrite FM in *. cbn [token_at follows well_formed] in *.
  destruct (header_ok data); [|destruct (o_exec o); discriminate].
  assert (X: x = window (4 + word data 0) (word data 2) data).
  { destruct (o_exec o) as [f|]; [destruct (f _); [|discriminate]|]; congruence. }
  specialize (LN _ _ AC). unfold word in X. rewrite LN in X.
  assert (WW: forall k (q : list N), window 0 k q = firstn k q) by reflexivity.
  rewrite X, N1, <- !WW, <- Nat.add_assoc, !window_split. cbn [Nat.add]. rewrite W. reflexivity.
Qed.
Print Assumptions C33_signed_data.

(** A concrete device: a toy signature scheme, and four operations. *)
Definition toy_sig (m sg : list N) : bool :=
  match sg with [x] => (x =? (fold_left N.add m 3) mod 256)%N | _ => false end.
Definition toy_sign (m : list N) : list N := m ++ [((fold_left N.add m 3) mod 256)%N].
Definition toy_cfg : cfg := Cfg 4 2 1 1000.
Definition toy_ops : list oper :=
  [ Oper 1 (Challenged (Chal (Some 7%N) WithAad)) (Some WithAad) (Some (fun x => length x <=? 5));
    Oper 2 (Challenged (Chal (Some 9%N) WithAad)) (Some WithAad) None;
    Oper 3 Allowed None None; Oper 4 Disallowed None None; Oper 5 Global (Some WithAad) None ].
Definition ask (id : N) (nonce : list N) : op := Request id None (GenEnv (Some nonce) (Some [66%N]) true) (VerEnv true true).
Definition use (id : N) (data : list N) : op := Request id (Some data) (GenEnv None None true) (VerEnv true true).
Definition toy_token : list N := [7; 0; 0; 0; 21; 22; 66]%N.
(** The token with two bytes of data for the operation, signed by the authority. *)
Definition toy_data : list N := toy_sign ([7; 0; 2; 0]%N ++ toy_token ++ [170; 187]%N).
Definition toy_run (l : list op) : tok * N * list event := run toy_sig toy_cfg toy_ops (init_tok toy_cfg (repeat 5%N 7)) 0 l.
Definition toy_history : list op :=
  [ask 1 [21; 22]%N; Wait 999; use 1 toy_data; use 1 toy_data; ask 2 [23; 24]%N; use 1 toy_data; use 3 []; use 4 toy_data; use 5 toy_data; use 6 []].

Ltac history_by_computation :=
  split; [vm_compute; lia|]; split; [vm_compute; lia|]; split; [repeat constructor|];
  split; [repeat first [apply Forall_cons | apply Forall_nil]; cbn [op_ok ask use g_rng g_sign]; repeat split; auto; repeat constructor |
          vm_compute; reflexivity].

Example C33_history : exists s now es, history toy_sig toy_cfg toy_ops (repeat 5%N 7) toy_history s now es /\
  map (fun e => match e with Event id _ r a _ => (id, r, a) end) es =
  [ (1, Some (RChallenge toy_token), Challenge toy_token); (1, Some RAuthorized, Context [170; 187] true); (1, Some RDenied, Refused);
    (2, Some (RChallenge [9; 0; 0; 0; 23; 24; 66]), Challenge [9; 0; 0; 0; 23; 24; 66]); (1, Some RDenied, Refused);
    (3, Some RAuthorized, Context [] false); (4, Some RDenied, Refused); (5, Some RAuthorized, Context [170; 187] false);
    (6, None, Unsupported) ]%N /\
  NoDup (map (nonce_of toy_cfg) (issued es)).
Proof.
  eexists _, _, _. split; [history_by_computation|]. split; [reflexivity|].
  repeat constructor; cbn; intuition discriminate.
Qed.

(** The same data a millisecond later is refused. *)
Example C33_expired : map (fun e => match e with Event id _ r a _ => (id, r, a) end) (snd (toy_run [ask 1 [21; 22]%N; Wait 1000; use 1 toy_data])) =
  [ (1, Some (RChallenge toy_token), Challenge toy_token); (1, Some RDenied, Refused) ]%N.
Proof. vm_compute. reflexivity. Qed.

Example C33_accepted_case : exists s now es, history toy_sig toy_cfg toy_ops (repeat 5%N 7) [ask 1 [21; 22]%N; Wait 999] s now es /\
  active toy_ops es = Some (toy_token, 0%N) /\ well_formed WithAad toy_data /\ endorsed toy_sig WithAad toy_token toy_data /\ (now < 0 + c_validity toy_cfg)%N.
Proof.
  eexists _, _, _. split; [history_by_computation|]. split; [reflexivity|]. split; [vm_compute; repeat constructor; discriminate|].
  split; [|reflexivity]. eexists. split; [reflexivity|]. vm_compute. repeat constructor.
Qed.

(** The length of the token given in the header is not compared with the length of the token, although the data for the
    operation is found with it: with a longer one, the operation is given bytes of the signature that nobody signed
    (here the last byte). *)
Theorem C33_header_length_refuted : exists data s now es x,
  history toy_sig toy_cfg toy_ops (repeat 5%N 7) [ask 1 [21; 22]%N; use 1 data] s now es /\
  (exists r, es = r ++ [Event 1 (Some data) (Some RAuthorized) (Context x true) 0]) /\
  (forall n, toy_sig (firstn n data) (skipn n data) = true -> ~ exists p q, firstn n data = p ++ x ++ q).
Proof.
  set (data := toy_sign ([8; 0; 2; 0]%N ++ toy_token ++ [170; 187]%N)).
  exists data. eexists _, _, _, [187; 230]%N. split; [history_by_computation|]. split.
  - eexists [_]. reflexivity.
  - intros n H (p & q & E).
    assert (L: length data = 14) by reflexivity.
    destruct (Nat.le_gt_cases 14 n) as [G|G].
    { rewrite (skipn_all2 data) in H by lia. discriminate. }
    destruct (Nat.eq_dec n 13) as [->|N13].
    + vm_compute in E.
      do 14 (destruct p as [|? p]; [cbn in E; try discriminate E; injection E; intros; discriminate|]; cbn [app] in E; try discriminate E; apply (f_equal (@tl N)) in E; cbn [tl] in E).
    + assert (LS: length (skipn n data) <> 1) by (rewrite skipn_length; lia).
      unfold toy_sig in H. destruct (skipn n data) as [|a [|b w]]; try discriminate. now elim LS.
Qed.
Print Assumptions C33_header_length_refuted.

(** The tag in a token is not checked when it is used: a token handed out for one operation also authorises another one. *)
Theorem C33_tag_refuted : exists s now es e1 d x b u,
  history toy_sig toy_cfg toy_ops (repeat 5%N 7) [ask 1 [21; 22]%N; use 2 toy_data] s now es /\
  es = [Event 1 None (Some (RChallenge toy_token)) e1 0; Event 2 d (Some RAuthorized) (Context x b) u] /\
  challenged toy_ops 1 (Chal (Some 7%N) WithAad) /\ challenged toy_ops 2 (Chal (Some 9%N) WithAad).
Proof.
  eexists _, _, _, _, _, _, _, _. split; [history_by_computation|]. split; [reflexivity|].
  split; (eexists; split; [reflexivity|reflexivity]).
Qed.
Print Assumptions C33_tag_refuted.

(** Data that is signed for every device is accepted any number of times. *)
Theorem C33_global_replay_refuted : exists s now es a u,
  history toy_sig toy_cfg toy_ops (repeat 5%N 7) [use 5 toy_data; use 5 toy_data] s now es /\
  es = [Event 5 (Some toy_data) (Some RAuthorized) a u; Event 5 (Some toy_data) (Some RAuthorized) a u].
Proof. eexists _, _, _, _, _. split; [history_by_computation|]. reflexivity. Qed.
Print Assumptions C33_global_replay_refuted.
