(** Device unlock properties (C66). *)
From Coq Require Import List NArith Lia Bool Arith ZifyBool ZifyNat ZifyN.
From Verif Require Import Base ByteMath_Spec ByteMath_Proofs Der_Model Der_Spec Auth_Model Auth_Proofs KeyWrap_Proofs.
From Verif Require Import DeviceUnlock_Model DeviceUnlock_Spec DeviceUnlock_Parse_Proofs DeviceUnlock_Proofs.
Import ListNotations.

(** ** Parsing *)
(** No data makes the parsers read outside of it, or return something outside of it. *)
Theorem C66_in_bounds : forall data,
  get_unlock_counter data <> Over /\ get_nonce data <> Over /\ get_unlock_policy data <> Over.
Proof.
  intros data. destruct (token_no_over data) as [NO LE]. unfold get_unlock_counter, get_nonce, get_unlock_policy. split; [|split].
  - destruct (parse_token data) as [t| |] eqn:P; cbn [bind]; [|discriminate|congruence]. rewrite bytes_at_ok; [discriminate|apply (LE t eq_refl)].
  - destruct (parse_token data) as [t| |] eqn:P; cbn [bind]; [|discriminate|congruence]. rewrite bytes_at_ok; [discriminate|apply (LE t eq_refl)].
  - pose proof (parse_no_over data) as Q. destruct (parse_container data) as [p| |] eqn:P; cbn [bind]; [|discriminate|congruence].
    rewrite bytes_at_ok; [discriminate|]. rewrite parse_container_eq in P.
    destruct (Nat.ltb_spec (length data) 2); [discriminate|]. destruct (Nat.ltb_spec (length data) (4 + word_at data 0)); [discriminate|].
    destruct (Nat.ltb_spec (length data) (4 + word_at data 0 + word_at data (2 + word_at data 0))); [discriminate|]. injection P as <-. exact H1.
Qed.
Print Assumptions C66_in_bounds.

(** The policy is found in data if and only if it is laid out as documented. *)
Theorem C66_policy : forall data p, bytes_ok data ->
  (get_unlock_policy data = Ret p <-> exists t s, data = body t p ++ s /\ fits t /\ fits p).
Proof.
  intros data p B. split.
  - intros H. unfold get_unlock_policy in H. destruct (parse_container data) as [c| |] eqn:P; cbn [bind] in H; [|discriminate|discriminate].
    destruct (parse_sound data c B P) as (t & q & s & D & FT & FQ & E & _).
    pose proof (policy_body t q s FT FQ) as G. unfold get_unlock_policy in G. rewrite <- D, P in G. cbn [bind] in G.
    rewrite H in G. injection G as ->. exists t, s. auto.
  - intros (t & s & -> & FT & FP). now apply policy_body.
Qed.
Print Assumptions C66_policy.

(** The counter and the nonce of a token that is laid out as documented are found, ... *)
Theorem C66_counter : forall tag content e format uuid c nonce signature policy s,
  item tag content e -> length format = 2 -> length uuid = 16 -> length nonce = 32 ->
  let t := e ++ format ++ uuid ++ [N.of_nat (length c)] ++ c ++ nonce ++ signature in
  fits t -> fits policy ->
  get_unlock_counter (body t policy ++ s) = Ret c /\ get_nonce (body t policy ++ s) = Ret nonce.
Proof.
  intros until s. intros IT LF LU LN t FT FP. apply counter_body; auto. apply (item_len_item tag content); auto.
  unfold fits, t in FT. rewrite app_length in FT. lia.
Qed.
Print Assumptions C66_counter.

(** ... and what is found is in such a token, unless the length of the OID is given as nearly four gigabytes. *)
Theorem C66_counter_found : forall data c, bytes_ok data -> get_unlock_counter data = Ret c ->
  exists e format uuid nonce signature policy s, length format = 2 /\ length uuid = 16 /\ length nonce = 32 /\ length c < 256 /\
    data = body (e ++ format ++ uuid ++ [N.of_nat (length c)] ++ c ++ nonce ++ signature) policy ++ s /\
    get_nonce data = Ret nonce /\
    ((exists tag content, item tag content e) \/ window 1 4 (e ++ format ++ uuid) = [0x84; 255; 255; 255]%N).
Proof.
  intros data c B H. destruct (counter_sound data c B H) as (e & f & u & n & sg & p & s & L1 & L2 & L3 & L4 & D & _ & _ & G & I0).
  exists e, f, u, n, sg, p, s. do 6 (split; [auto|]). destruct I0 as [I0|[_ I0]]; auto.
Qed.
Print Assumptions C66_counter_found.

Definition ex_token : list N := token_text [43; 6; 1]%N [9; 8; 7]%N [3; 0]%N (repeat 5%N 32) [77; 78]%N.
Example C66_counter_ex : get_unlock_counter (body ex_token [1; 2; 3]%N ++ [99]%N) = Ret [3; 0]%N /\
  get_nonce (body ex_token [1; 2; 3]%N ++ [99]%N) = Ret (repeat 5%N 32) /\ get_unlock_policy (body ex_token [1; 2; 3]%N ++ [99]%N) = Ret [1; 2; 3]%N.
Proof. vm_compute. auto. Qed.

(** An OID of nearly four gigabytes: the sum of the lengths wraps around to a few bytes, and the token is taken as if the OID ended there
    (asn1_util.c:73 and 149; the shift is undefined in C). *)
Definition huge_oid : list N := [6; 0x84; 255; 255; 255; 250]%N ++ repeat 0%N 12 ++ [1; 17]%N ++ repeat 5%N 32.
Lemma item_prefix : forall tag content e r, item tag content e -> e ++ r = huge_oid -> False.
Proof.
  intros tag content e r (f & LF & L5 & ->) E. cbn [app] in E. unfold huge_oid in E. cbn [app] in E. injection E as _ E.
  assert (LL: length ((f ++ content) ++ r) = length (0x84 :: 255 :: 255 :: 255 :: 250 :: repeat 0%N 12 ++ 1%N :: 17%N :: repeat 5%N 32)%N) by (rewrite E; reflexivity).
  rewrite !app_length in LL. cbn in LL. destruct LF as [(B & ->)|(bs & B1 & B2 & B3 & ->)].
  - cbn [app] in E. injection E as E0 _. lia.
  - assert (E0: nth 0 ((((128 + N.of_nat (length bs))%N :: bs) ++ content) ++ r) 0%N = 0x84%N) by (rewrite E; reflexivity).
    assert (E1: skipn 1 ((((128 + N.of_nat (length bs))%N :: bs) ++ content) ++ r) = (255 :: 255 :: 255 :: 250 :: repeat 0%N 12 ++ 1%N :: 17%N :: repeat 5%N 32)%N)
      by (rewrite E; reflexivity).
    clear E. set (x := (128 + N.of_nat (length bs))%N) in *. cbn [app nth skipn] in E0, E1. rename E1 into E. assert (length bs = 4) by lia.
    destruct bs as [|b0 [|b1 [|b2 [|b3 [|]]]]]; cbn [length] in *; try lia. cbn [app] in E. injection E as -> -> -> -> _.
    change (be_value [255; 255; 255; 250]%N) with 4294967290%N in B3. lia.
Qed.
(** So the counter is taken from a token with a malformed OID. *)
Theorem C66_huge_oid_refuted : exists data c, bytes_ok data /\ get_unlock_counter data = Ret c /\
  forall tag content e format uuid nonce signature policy s, item tag content e ->
    data = body (e ++ format ++ uuid ++ [N.of_nat (length c)] ++ c ++ nonce ++ signature) policy ++ s ->
    fits (e ++ format ++ uuid ++ [N.of_nat (length c)] ++ c ++ nonce ++ signature) -> fits policy -> False.
Proof.
  exists (body huge_oid [] ++ [1%N]), [17%N]. split.
  { apply Forall_forall. intros x I0. apply (proj1 (forallb_forall (fun x => (x <? 256)%N) (body huge_oid [] ++ [1%N])) eq_refl) in I0. unfold byte_ok. lia. }
  split; [vm_compute; reflexivity|].
  intros tag content e format uuid nonce signature policy s IT E FT FP.
  assert (FH: fits huge_oid) by (unfold fits; vm_compute; reflexivity).
  pose proof (parse_body huge_oid [] [1%N] FH eq_refl) as P1. rewrite E in P1. rewrite (parse_body _ _ s FT FP) in P1.
  injection P1 as LT LP. pose proof (body_window huge_oid [] [1%N]) as W1. rewrite E in W1.
  assert (LE: length huge_oid = length (e ++ format ++ uuid ++ [N.of_nat (length [17%N])] ++ [17%N] ++ nonce ++ signature)) by (vm_compute; symmetry; exact LT).
  rewrite LE, body_window in W1. exact (item_prefix tag content e _ IT W1).
Qed.
Print Assumptions C66_huge_oid_refuted.

(** ** Histories *)
(** Any history of requests from an initialised token handler, for any authority, device, and outcome of everything around. *)
Definition history (sig_ok : list N -> list N -> bool) (d : device) (memory : list N) (l : list op) (s : tok) (now : N) (es : list event) : Prop :=
  init_ok d = true /\ bytes_ok (d_oid d) /\ 0 < c_nonce (d_auth d) /\
  c_data (d_auth d) + c_nonce (d_auth d) + c_sig (d_auth d) <= length memory /\ bytes_ok memory /\ Forall op_ok l /\
  run sig_ok d (init_tok (d_auth d) memory) 0 l = (s, now, es).

Lemma init_tok_ok : forall c memory, c_data c + c_nonce c + c_sig c <= length memory -> bytes_ok memory -> tok_ok c (init_tok c memory).
Proof.
  intros c memory L B. constructor; unfold init_tok, total; cbn [k_buf].
  - rewrite firstn_length. lia.
  - now apply KeyWrap_Proofs.bytes_ok_firstn.
Qed.

Lemma oid_some : forall d, init_ok d = true -> d_oid d <> [].
Proof. intros d H E. unfold init_ok in H. rewrite E in H. discriminate. Qed.

Lemma history_holds : forall sig_ok d memory l s now es, history sig_ok d memory l s now es -> tok_ok (d_auth d) s /\ holds (d_auth d) s (active es).
Proof.
  intros sig_ok d memory l s now es (I0 & BO & NP & L & B & OK & H).
  exact (run_holds sig_ok d BO (oid_some d I0) NP l _ _ _ _ [] es (init_tok_ok _ memory L B) eq_refl OK H).
Qed.

Lemma history_split : forall sig_ok d memory l s now es e1 e e2, history sig_ok d memory l s now es -> es = e1 ++ e :: e2 ->
  exists o s1 n1 s2 n2, tok_ok (d_auth d) s1 /\ holds (d_auth d) s1 (active e1) /\ op_ok o /\ step sig_ok d s1 n1 o = (s2, n2, [e]) /\
    bytes_ok (d_oid d) /\ d_oid d <> [].
Proof.
  intros until e2. intros (I0 & BO & NP & L & B & OK & H) E.
  destruct (run_split sig_ok d l _ _ _ _ _ _ _ _ H E OK) as (l1 & o & s1 & n1 & s2 & n2 & O1 & O2 & R & S).
  exists o, s1, n1, s2, n2. pose proof (oid_some d I0).
  destruct (history_holds sig_ok d memory l1 s1 n1 e1) as [T HO]; [exact (conj I0 (conj BO (conj NP (conj L (conj B (conj O1 R))))))|]. auto 10.
Qed.

(** What a token says: the device's OID and UUID, and its counter with the next odd number of bits set.  A token is only made for a device
    with an even number of bits set, a locked one. *)
Theorem C66_token : forall sig_ok d memory l s now es counter t u,
  history sig_ok d memory l s now es -> d_counter_len d < 256 -> c_data (d_auth d) = data_length d ->
  In (EToken counter (Issued t) u) es \/ In (EToken counter (Withheld t) u) es ->
  exists c uuid c' nonce signature, counter = Some c /\ locked (firstn (d_counter_len d) c) /\ next_unlocked (firstn (d_counter_len d) c) c' /\
    length c' = d_counter_len d /\ length nonce = c_nonce (d_auth d) /\ length signature <= c_sig (d_auth d) /\
    t = token_text (d_oid d) uuid c' nonce signature.
Proof.
  intros until u. intros H CL CD I0.
  assert (exists v, e_counter v = counter /\ token_made d v u t) as (v & EC & TM).
  { assert (exists m, In (EToken counter m u) es /\ (m = Issued t \/ m = Withheld t)) as (m & IM & M) by (destruct I0; eauto).
    destruct (in_split _ _ IM) as (e1 & e2 & E).
    destruct (history_split _ _ _ _ _ _ _ _ _ _ H E) as (o & s1 & n1 & s2 & n2 & T & HO & OK & S & BO & NE).
    destruct o as [buf v|data v ok| |ms]; cbn [step] in S.
    2: { destruct (apply_policy sig_ok d s1 data v ok n1). discriminate. }
    2: discriminate. 2: discriminate.
    destruct (get_unlock_token d s1 buf v n1) as [s3 m'] eqn:G. injection S as <- <- EC <- <-.
    pose proof (get_token_spec _ _ _ _ _ _ _ T OK BO NE G) as Q. exists v. split; [auto|].
    destruct M; subst m'; tauto. }
  destruct TM as (c & uu & c' & rnd & sg & E1 & E2 & E3 & E4 & E5 & E6 & E7 & E8 & E9 & ->).
  exists c, uu, c', (firstn (c_nonce (d_auth d)) (rnd ++ repeat 0%N (c_nonce (d_auth d)))), (firstn (c_sig (d_auth d)) sg).
  assert (LC: length c' = d_counter_len d) by (rewrite <- E5; apply E7).
  split; [congruence|]. split; [auto|]. split; [auto|]. split; [auto|]. split; [rewrite firstn_length, app_length, repeat_length; lia|].
  split; [rewrite firstn_length; lia|]. rewrite CD, Nat.sub_diag. cbn [repeat app]. unfold ctx, token_text.
  rewrite N.mod_small by lia. cbn [app]. rewrite <- !app_assoc. cbn [app]. rewrite <- !app_assoc. reflexivity.
Qed.
Print Assumptions C66_token.

(** No token is made for a device with an odd number of bits set, an unlocked one. *)
Theorem C66_not_locked : forall sig_ok d memory l s now es c m u, history sig_ok d memory l s now es ->
  In (EToken (Some c) m u) es -> ~ locked (firstn (d_counter_len d) c) -> m = Refused.
Proof.
  intros until u. intros H I0 NL. destruct (in_split _ _ I0) as (e1 & e2 & E).
  destruct (history_split _ _ _ _ _ _ _ _ _ _ H E) as (o & s1 & n1 & s2 & n2 & T & HO & OK & S & BO & NE).
  destruct o as [buf v|data v ok| |ms]; cbn [step] in S.
  2: { destruct (apply_policy sig_ok d s1 data v ok n1). discriminate. }
  2: discriminate. 2: discriminate.
  destruct (get_unlock_token d s1 buf v n1) as [s3 m'] eqn:G. injection S as <- <- EC <- <-.
  unfold get_unlock_token in G. destruct (e_alloc v); cbn [negb] in G; [|congruence]. rewrite EC in G. cbv zeta in G.
  destruct (Nat.odd _) eqn:O in G; [congruence|]. exfalso. apply NL. eexists. split; [|apply contiguous_array].
  rewrite <- Nat.negb_odd, O. reflexivity.
Qed.
Print Assumptions C66_not_locked.

(** The authority reads in its unlock data what the device wrote in the token. *)
Theorem C66_round_trip : forall sig_ok d memory l s now es counter t u policy signature,
  history sig_ok d memory l s now es -> d_counter_len d < 256 -> c_data (d_auth d) = data_length d -> c_nonce (d_auth d) = 32 ->
  In (EToken counter (Issued t) u) es -> fits t -> fits policy ->
  exists c c', counter = Some c /\ next_unlocked (firstn (d_counter_len d) c) c' /\
    get_unlock_counter (body t policy ++ signature) = Ret c' /\
    get_nonce (body t policy ++ signature) = Ret (window (data_length d) 32 t) /\
    get_unlock_policy (body t policy ++ signature) = Ret policy.
Proof.
  intros until signature. intros H CL CD CN I0 FT FP.
  assert (LO: 0 < length (d_oid d) <= 127).
  { destruct (in_split _ _ I0) as (e1 & e2 & E).
    destruct (history_split _ _ _ _ _ _ _ _ _ _ H E) as (o & s1 & n1 & s2 & n2 & T & HO & OK & S & BO & NE).
    destruct o as [buf v|data v ok| |ms]; cbn [step] in S.
    2: { destruct (apply_policy sig_ok d s1 data v ok n1). discriminate. }
    2: discriminate. 2: discriminate.
    destruct (get_unlock_token d s1 buf v n1) as [s3 m'] eqn:G. injection S as <- <- EC -> <-.
    destruct (get_token_spec _ _ _ _ _ _ _ T OK BO NE G) as (_ & _ & _ & _ & (c & uu & c' & rnd & sg & _ & _ & _ & _ & _ & _ & _ & Q & _) & _).
    destruct (d_oid d); [congruence|]. cbn [length] in *. lia. }
  destruct (C66_token _ _ _ _ _ _ _ _ _ _ H CL CD (or_introl I0)) as (c & uu & c' & nonce & sg & E1 & E2 & E3 & E4 & E5 & E6 & ->).
  exists c, c'. split; [auto|]. split; [auto|].
  assert (TE: token_text (d_oid d) uu c' nonce sg = (6%N :: N.of_nat (length (d_oid d)) :: d_oid d) ++ [1%N; 0%N] ++ uuid_field uu ++ [N.of_nat (length c')] ++ c' ++ nonce ++ sg).
  { reflexivity. }
  assert (IT: item 6 (d_oid d) (6%N :: N.of_nat (length (d_oid d)) :: d_oid d)).
  { exists [N.of_nat (length (d_oid d))]. split; [left; split; [lia|reflexivity]|]. split; [cbn [length]; lia|reflexivity]. }
  assert (NW: window (data_length d) 32 (token_text (d_oid d) uu c' nonce sg) = nonce).
  { set (A := (6%N :: N.of_nat (length (d_oid d)) :: d_oid d) ++ [1%N; 0%N] ++ uuid_field uu ++ [N.of_nat (length c')] ++ c').
    assert (LA: length A = data_length d).
    { unfold A. rewrite !app_length, length_uuid. cbn [length]. unfold data_length, UUID_LEN. lia. }
    replace (token_text (d_oid d) uu c' nonce sg) with (A ++ nonce ++ sg) by (rewrite TE; unfold A; rewrite <- !app_assoc; reflexivity).
    rewrite <- LA. rewrite <- CN, <- E5. apply window_mid. }
  rewrite NW. rewrite TE in FT |- *.
  destruct (C66_counter 6 (d_oid d) _ [1%N; 0%N] (uuid_field uu) c' nonce sg policy signature IT eq_refl (length_uuid uu) ltac:(lia) FT FP) as [G1 G2].
  split; [exact G1|]. split; [exact G2|]. now apply policy_body.
Qed.
Print Assumptions C66_round_trip.

(** The device is told to unlock only with data that holds the active token, within its time, and the authority's signature of everything
    before the signature. *)
Theorem C66_unlock : forall sig_ok d memory l s now es e1 data a u e2,
  history sig_ok d memory l s now es -> es = e1 ++ EApply data a u :: e2 -> a <> Rejected ->
  exists t t0 policy n, active e1 = Some (t, t0) /\ (c_validity (d_auth d) = 0%N \/ (u < t0 + c_validity (d_auth d))%N) /\
    window 2 (length t) data = t /\ get_unlock_policy data = Ret policy /\ n = 4 + length t + length policy /\ n < length data /\
    sig_ok (firstn n data) (skipn n data) = true.
Proof.
  intros until e2. intros H E NR. destruct (history_split _ _ _ _ _ _ _ _ _ _ H E) as (o & s1 & n1 & s2 & n2 & T & HO & OK & S & BO & NE).
  destruct o as [buf v|dd v ok| |ms]; cbn [step] in S.
  { destruct (get_unlock_token d s1 buf v n1). discriminate. }
  2: discriminate. 2: discriminate.
  destruct (apply_policy sig_ok d s1 dd v ok n1) as [s3 a'] eqn:A. injection S as <- <- -> <- <-.
  assert (NP: 0 < c_nonce (d_auth d)) by apply H.
  destruct (apply_spec sig_ok d NP _ _ _ _ _ _ _ _ T HO OK A) as [(-> & _)|(pc & t & t0 & _ & P & AC & LE & W & V & X)]; [congruence|].
  destruct (parse_sound data pc OK P) as (tt & pol & sg & D & FT & FP & -> & _). cbn [p_policy_len] in *.
  exists t, t0, pol, (4 + length t + length pol). split; [auto|]. split; [auto|]. split; [auto|].
  split; [rewrite D; now apply policy_body|]. split; [auto|]. replace (4 + length t + length pol) with (2 + length t + (2 + length pol)) by lia. auto.
Qed.
Print Assumptions C66_unlock.

(** If the authority signs nothing but unlock data as documented, then what the device unlocks with, token and policy, is what the authority
    signed. *)
Theorem C66_signed : forall sig_ok signed d memory l s now es e1 data a u e2,
  (forall m sg, sig_ok m sg = true -> exists t p, In (t, p) signed /\ fits t /\ fits p /\ m = body t p) ->
  history sig_ok d memory l s now es -> es = e1 ++ EApply data a u :: e2 -> a <> Rejected ->
  exists t t0 policy sg, In (t, policy) signed /\ active e1 = Some (t, t0) /\ data = body t policy ++ sg /\ get_unlock_policy data = Ret policy.
Proof.
  intros until e2. intros SG H E NR. destruct (C66_unlock _ _ _ _ _ _ _ _ _ _ _ _ H E NR) as (t & t0 & pol & n & AC & _ & W & GP & N & LT & V).
  destruct (SG _ _ V) as (t' & p' & IS & FT & FP & M).
  assert (D: data = body t' p' ++ skipn n data) by (rewrite <- M; symmetry; apply firstn_skipn).
  pose proof (policy_body t' p' (skipn n data) FT FP) as GP'. rewrite <- D, GP in GP'. injection GP' as <-.
  assert (LL: length t' = length t).
  { assert (length (firstn n data) = length (body t' pol)) by now rewrite M. rewrite firstn_length, length_body in H0. lia. }
  assert (t' = t). { rewrite <- W, <- LL, D. symmetry. apply body_window. }
  subst t'. exists t, t0, pol, (skipn n data). auto.
Qed.
Print Assumptions C66_signed.

(** Such data is accepted as long as the token is active, if the clock and the engine work. *)
Theorem C66_accepted : forall sig_ok d memory l s now es t t0 policy sg v ok,
  history sig_ok d memory l s now es -> active es = Some (t, t0) -> fits t -> fits policy -> sg <> [] ->
  bytes_ok (body t policy ++ sg) -> sig_ok (body t policy) sg = true ->
  (c_validity (d_auth d) = 0%N \/ (now < t0 + c_validity (d_auth d))%N) -> r_clock v = true -> r_engine v = true ->
  snd (apply_policy sig_ok d s (body t policy ++ sg) v ok now) = if ok then Unlocked else UnlockFailed.
Proof.
  intros until ok. intros H AC FT FP NE B V X RC RE. destruct (history_holds _ _ _ _ _ _ _ H) as [T HO].
  assert (KS: k_len s <= length (k_buf s)). { eapply holds_small; eauto. apply H. }
  rewrite AC in HO. cbn [holds] in HO. destruct HO as (P1 & P2 & P3 & P4).
  unfold apply_policy, authenticate. rewrite parse_body by auto. cbn [p_policy_len].
  assert (NL: length (body t policy) = 2 + k_len s + (2 + length policy)) by (rewrite length_body; lia).
  assert (VV: verify_data sig_ok (d_auth d) s (body t policy ++ sg) 2 (2 + length policy) v now = Valid).
  { apply (verify_valid sig_ok); auto. assert (0 < length sg) by (destruct sg; [congruence|cbn [length]; lia]).
    assert (0 < c_nonce (d_auth d)) by apply H. split; [lia|]. split; [rewrite app_length; lia|].
    split; [rewrite P1, <- P1, P1, body_window; rewrite P1 in P2; exact P2|].
    rewrite <- NL. rewrite firstn_app, skipn_app, Nat.sub_diag, firstn_O, app_nil_r, skipn_all, firstn_all. cbn [skipn app].
    split; [exact V|]. split; [|exact RE]. destruct X as [X|X]; [auto|]. destruct (N.eq_dec (c_validity (d_auth d)) 0); [auto|].
    right. rewrite P4 by auto. auto. }
  rewrite VV. destruct ok; reflexivity.
Qed.
Print Assumptions C66_accepted.

(** ** Tokens are used once *)
Lemma active_made : forall es2 es1 t t0, active (es1 ++ es2) = Some (t, t0) -> active es1 = Some (t, t0) \/ In t (tokens es2).
Proof.
  induction es2 as [|e es2 IH] using rev_ind; intros es1 t t0 H.
  - rewrite app_nil_r in H. auto.
  - rewrite app_assoc, active_snoc in H. unfold tokens. rewrite flat_map_app. fold (tokens es2).
    assert (C: active (es1 ++ es2) = Some (t, t0) \/ In t (tokens [e])).
    { destruct e as [c m u|dd a u|]; cbn [observe] in H; [destruct m|destruct a|]; auto; try discriminate; injection H as -> _; right; left; reflexivity. }
    destruct C as [C|C]; [|right; apply in_or_app; auto]. destruct (IH _ _ _ C); [auto|]. right. apply in_or_app. auto.
Qed.

Lemma tokens_long : forall sig_ok d memory l s now es t, history sig_ok d memory l s now es -> In t (tokens es) ->
  c_data (d_auth d) + c_nonce (d_auth d) <= length t.
Proof.
  intros until t. intros H I0. unfold tokens in I0. apply in_flat_map in I0. destruct I0 as (e & IE & J).
  destruct (in_split _ _ IE) as (e1 & e2 & E).
  destruct (history_split _ _ _ _ _ _ _ _ _ _ H E) as (o & s1 & n1 & s2 & n2 & T & HO & OK & S & BO & NE).
  destruct o as [buf v|dd v ok| |ms]; cbn [step] in S.
  2: { destruct (apply_policy sig_ok d s1 dd v ok n1). injection S as <- <- <-. contradiction. }
  2: { injection S as <- <- <-. contradiction. }
  2: discriminate.
  destruct (get_unlock_token d s1 buf v n1) as [s3 m] eqn:G. injection S as <- <- <-.
  pose proof (get_token_spec _ _ _ _ _ _ _ T OK BO NE G) as Q.
  destruct m as [t'| | |t'|]; try contradiction; (destruct J as [<-|[]]); destruct Q as (_ & _ & _ & _ & Q & _); exact (made_long sig_ok d (proj1 (proj2 (proj2 H))) v n1 _ Q).
Qed.

Lemma nodup_disjoint : forall (A : Type) (l m : list A) y, NoDup (l ++ m) -> In y l -> In y m -> False.
Proof.
  induction l as [|x l IH]; intros m y ND I1 I3; [contradiction|]. cbn [app] in ND. inversion ND as [|? ? NI ND']; subst.
  destruct I1 as [->|I1]; [apply NI; apply in_or_app; auto|exact (IH m y ND' I1 I3)].
Qed.
Arguments nodup_disjoint {A}.

(** Unlocking ends the use of a token: if the nonces of the tokens made are all different, no data unlocks a device twice. *)
Theorem C66_single_use : forall sig_ok d memory l s now es e1 e2 e3 data u1 a u2,
  history sig_ok d memory l s now es -> NoDup (map (window (c_data (d_auth d)) (c_nonce (d_auth d))) (tokens es)) ->
  es = e1 ++ EApply data Unlocked u1 :: e2 ++ EApply data a u2 :: e3 -> a = Rejected.
Proof.
  intros until u2. intros H ND E. assert (D: a = Rejected \/ a <> Rejected) by (destruct a; auto; right; discriminate).
  destruct D as [D|NR]; [exact D|]. exfalso.
  destruct (C66_unlock _ _ _ _ _ _ _ _ _ _ _ _ H E ltac:(discriminate)) as (t1 & x1 & p1 & n1 & A1 & _ & W1 & G1 & N1 & L1 & _).
  assert (E': es = (e1 ++ EApply data Unlocked u1 :: e2) ++ EApply data a u2 :: e3) by (rewrite E, <- app_assoc; reflexivity).
  destruct (C66_unlock _ _ _ _ _ _ _ _ _ _ _ _ H E' NR) as (t2 & x2 & p2 & n2 & A2 & _ & W2 & G2 & N2 & L2 & _).
  assert (I1: In t1 (tokens e1)) by (destruct (active_made e1 [] t1 x1 A1) as [Q|Q]; [discriminate|exact Q]).
  assert (I2: In t2 (tokens e2)).
  { change (e1 ++ EApply data Unlocked u1 :: e2) with (e1 ++ [EApply data Unlocked u1] ++ e2) in A2. rewrite app_assoc in A2.
    destruct (active_made e2 _ t2 x2 A2) as [Q|Q]; [rewrite active_snoc in Q; discriminate|exact Q]. }
  assert (IS: tokens es = tokens e1 ++ tokens e2 ++ tokens e3).
  { rewrite E. unfold tokens. rewrite flat_map_app. cbn [flat_map app]. now rewrite flat_map_app. }
  assert (LT1: c_data (d_auth d) + c_nonce (d_auth d) <= length t1).
  { apply (tokens_long _ _ _ _ _ _ _ _ H). rewrite IS. apply in_or_app. auto. }
  assert (LT2: c_data (d_auth d) + c_nonce (d_auth d) <= length t2).
  { apply (tokens_long _ _ _ _ _ _ _ _ H). rewrite IS. apply in_or_app. right. apply in_or_app. auto. }
  set (f := window (c_data (d_auth d)) (c_nonce (d_auth d))) in *.
  assert (SUB: forall t, c_data (d_auth d) + c_nonce (d_auth d) <= length t -> window 2 (length t) data = t ->
      f t = window (2 + c_data (d_auth d)) (c_nonce (d_auth d)) data).
  { intros t LT W. unfold f. rewrite <- W. unfold window. rewrite skipn_firstn_comm, firstn_firstn, Nat.min_l by lia. now rewrite skipn_skipn. }
  assert (SAME: f t1 = f t2) by (rewrite (SUB t1 LT1 W1), (SUB t2 LT2 W2); reflexivity).
  rewrite IS, map_app in ND. apply (in_map f) in I1. apply (in_map f) in I2.
  assert (I3: In (f t2) (map f (tokens e2 ++ tokens e3))) by (rewrite map_app; apply in_or_app; auto).
  rewrite SAME in I1. exact (nodup_disjoint _ _ _ ND I1 I3).
Qed.
Print Assumptions C66_single_use.

(** Nothing unlocks the device between clearing the policy and the next token. *)
Theorem C66_cleared : forall sig_ok d memory l s now es e1 e2 e3 data a u,
  history sig_ok d memory l s now es -> es = e1 ++ EClear :: e2 ++ EApply data a u :: e3 -> tokens e2 = [] -> a = Rejected.
Proof.
  intros until u. intros H E TK. assert (D: a = Rejected \/ a <> Rejected) by (destruct a; auto; right; discriminate).
  destruct D as [D|NR]; [exact D|]. exfalso.
  assert (E': es = (e1 ++ EClear :: e2) ++ EApply data a u :: e3) by (rewrite E, <- app_assoc; reflexivity).
  destruct (C66_unlock _ _ _ _ _ _ _ _ _ _ _ _ H E' NR) as (t2 & x2 & p2 & n2 & A2 & _).
  change (e1 ++ EClear :: e2) with (e1 ++ [EClear] ++ e2) in A2. rewrite app_assoc in A2.
  destruct (active_made e2 _ t2 x2 A2) as [Q|Q]; [rewrite active_snoc in Q; discriminate|rewrite TK in Q; contradiction].
Qed.
Print Assumptions C66_cleared.

(** ** A history that unlocks *)
Definition ex_cfg : cfg := Cfg 26 32 4 1000.
Definition ex_dev : device := Device [43; 6; 1]%N 2 ex_cfg.
Definition ex_memory : list N := repeat 0%N 62.
Definition ex_sig : list N -> list N -> bool := fun _ s => match s with [42%N] => true | _ => false end.
Definition ex_env (c : list N) : env := Env true (Some c) (Some [9; 8; 7]%N) (GenEnv (Some (repeat 5%N 32)) (Some [77; 78]%N) true).
Definition ex_data : list N := body (token_text [43; 6; 1]%N [9; 8; 7]%N [7; 0]%N (repeat 5%N 32) [77; 78]%N) [1; 2]%N ++ [42%N].
Definition ex_run := run ex_sig ex_dev (init_tok ex_cfg ex_memory) 0
  [GetToken (repeat 0%N 80) (ex_env [3; 0]%N); Pass 10; Apply ex_data (VerEnv true true) true; Apply ex_data (VerEnv true true) true;
   GetToken (repeat 0%N 80) (ex_env [7; 0]%N)].
Example C66_ex : snd ex_run =
  [EToken (Some [3; 0]%N) (Issued (token_text [43; 6; 1]%N [9; 8; 7]%N [7; 0]%N (repeat 5%N 32) [77; 78]%N)) 0; EApply ex_data Unlocked 10;
   EApply ex_data Rejected 10; EToken (Some [7; 0]%N) Refused 10].
Proof. vm_compute. reflexivity. Qed.

(** ** What does not hold *)
(** A counter of 256 bytes is accepted by device_unlock_token_init, but its length does not fit in the byte for it: the authority reads an
    empty counter from the token. *)
Theorem C66_counter_length_refuted : exists d s buf v t c, init_ok d = true /\ e_counter v = Some c /\ length c = d_counter_len d /\
  snd (get_unlock_token d s buf v 0) = Issued t /\ get_unlock_counter (body t [] ++ [42%N]) = Ret [].
Proof.
  exists (Device [43; 6; 1]%N 256 (Cfg 280 32 4 1000)), (Tok (repeat 0%N 316) 0 0), (repeat 0%N 400),
    (Env true (Some (repeat 0%N 256)) (Some [9; 8; 7]%N) (GenEnv (Some (repeat 5%N 32)) (Some [77; 78]%N) true)).
  eexists. eexists. split; [reflexivity|]. split; [reflexivity|]. split; [reflexivity|].
  split; [vm_compute; reflexivity|]. vm_compute. reflexivity.
Qed.
Print Assumptions C66_counter_length_refuted.

(** The length given for the token in the unlock data is not compared with the length of the active token: if the authority signs such
    data, the token that is parsed from it is not the token that was checked. *)
Theorem C66_token_length_refuted : exists l es e1 data u e2 t t0, snd (run (fun _ _ => true) ex_dev (init_tok ex_cfg ex_memory) 0 l) = es /\
  es = e1 ++ EApply data Unlocked u :: e2 /\ active e1 = Some (t, t0) /\
  exists p, parse_container data = Ret p /\ window (p_token p) (p_token_len p) data <> t.
Proof.
  exists [GetToken (repeat 0%N 80) (ex_env [3; 0]%N);
          Apply ([5; 0]%N ++ token_text [43; 6; 1]%N [9; 8; 7]%N [7; 0]%N (repeat 5%N 32) [77; 78]%N ++ repeat 0%N 20) (VerEnv true true) true].
  eexists. exists [EToken (Some [3; 0]%N) (Issued (token_text [43; 6; 1]%N [9; 8; 7]%N [7; 0]%N (repeat 5%N 32) [77; 78]%N)) 0].
  eexists. exists 0%N. exists []. eexists. eexists. split; [reflexivity|]. split; [vm_compute; reflexivity|]. split; [vm_compute; reflexivity|].
  eexists. split; [vm_compute; reflexivity|]. vm_compute. discriminate.
Qed.
Print Assumptions C66_token_length_refuted.
