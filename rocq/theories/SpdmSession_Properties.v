(** C69: SPDM sessions. *)
From Coq Require Import List NArith Bool Arith Lia.
From Verif Require Import Base SpdmSession_Model SpdmSession_Spec SpdmSession_Proofs SpdmSession_Run_Proofs SpdmSession_Wire_Proofs SpdmSession_Slot_Proofs SpdmSession_Talk_Proofs.
Import ListNotations.

(** No two messages are ever sealed with the same key and IV, over all sessions and requests, failed ones included. *)
Theorem C69_nonces : forall seal tag opn n hist s t os, run seal tag opn (start n) hist = (s, t, os) -> fresh_derived t -> NoDup (seals t).
Proof.
  intros seal tag opn n hist s t os R F. destruct (run_inv seal tag opn hist _ _ _ _ [] R F (start_inv n)) as [[A _] _]. exact (a_seals _ _ A).
Qed.
Print Assumptions C69_nonces.

(** Messages are only accepted with a valid tag, and no message is ever accepted at the same place of a session twice. *)
Theorem C69_replay : forall seal tag opn n hist s t os, run seal tag opn (start n) hist = (s, t, os) -> fresh_derived t ->
  NoDup (opens t) /\ forall k iv aad ct tg pt, In (Opened k iv aad ct tg pt) t -> opn k iv aad ct tg = Some pt.
Proof.
  intros seal tag opn n hist s t os R F. destruct (run_inv seal tag opn hist _ _ _ _ [] R F (start_inv n)) as [[A _] O]. split; [exact (a_opens _ _ A)|exact O].
Qed.
Print Assumptions C69_replay.

(** Only keys that were derived are used, each in its own direction; zeroed keys are not. *)
Theorem C69_keys : forall seal tag opn n hist s t os, run seal tag opn (start n) hist = (s, t, os) -> fresh_derived t ->
  (forall k iv, In (k, iv) (seals t) -> exists ks, In ks (derived t) /\ dkey (rsp ks) = k) /\
  (forall k iv, In (k, iv) (opens t) -> exists ks, In ks (derived t) /\ dkey (req ks) = k).
Proof.
  intros seal tag opn n hist s t os R F. destruct (run_inv seal tag opn hist _ _ _ _ [] R F (start_inv n)) as [[A _] O]. split; [exact (a_sealed _ _ A)|exact (a_opened _ _ A)].
Qed.
Print Assumptions C69_keys.

Lemma salts : forall seal tag opn n hist s t os i x b k, run seal tag opn (start n) hist = (s, t, os) -> fresh_derived t -> holds s i x ->
  (if b : bool then dat x else hs x) = Some k -> length (salt (req k)) = 12 /\ length (salt (rsp k)) = 12.
Proof.
  intros seal tag opn n hist s t os i x b k R F H K. destruct (run_inv seal tag opn hist _ _ _ _ [] R F (start_inv n)) as [[A _] _].
  assert (AT : at_slot s i b = Some k) by (unfold at_slot; rewrite H; exact K).
  split; [apply (a_req _ _ A i b k AT)|apply (a_rsp _ _ A i b k AT)].
Qed.

(** What the peer has sealed as the next message is delivered as it was. *)
Theorem C69_delivered : forall seal tag opn n hist s t os i x k app m, run seal tag opn (start n) hist = (s, t, os) -> fresh_derived t -> gcm seal tag opn ->
  holds s i x -> enc_mac x = true -> k = current x -> match ph x with Handshaking => hs x | Established => dat x end = Some k -> (count (req k) < max_count)%N ->
  off m + plen m <= length (buf m) -> payload m = secured seal tag (sid x) (dkey (req k)) (salt (req k)) (count (req k)) app -> (N.of_nat (length app) + 18 < 65536)%N ->
  exists s' m' ev, decode opn s m all_works = (s', Some m', ev) /\ payload m' = app /\ last s' = Some (sid x).
Proof.
  intros seal tag opn n hist s t os i x k app m R F G H EM -> K C FIT PAY SM.
  assert (LS : length (salt (req (current x))) = 12) by (destruct (ph x); [apply (salts seal tag opn n hist s t os i x false _ R F H K)|apply (salts seal tag opn n hist s t os i x true _ R F H K)]).
  pose proof (run_uinv seal tag opn hist _ _ _ _ R (start_uinv n)) as U. destruct (proj2 U i x H) as [BD NZ].
  destruct (decrypt_ok seal tag opn G m (req (current x)) (sid x) app LS FIT PAY SM) as (m1 & D1 & P1 & _).
  unfold decode. cbv zeta. assert (PL : plen m = length app + 24).
  { pose proof (f_equal (@length N) PAY) as Q. unfold payload in Q. rewrite length_window, (length_secured seal tag opn G) in Q. lia. }
  replace (plen m <? 4) with false by (symmetry; apply Nat.ltb_ge; lia).
  assert (WI : window 0 4 (payload m) = le32 (sid x)) by (rewrite PAY; reflexivity).
  rewrite WI, FlashLog_Scan_Proofs.le_value_le32 by exact BD.
  change (find (set_last s None) (sid x)) with (find s (sid x)). rewrite (find_holds s i x U H).
  replace (max_count <=? count (req (current x)))%N with false by (symmetry; apply N.leb_gt; exact C). rewrite EM, D1.
  do 3 eexists. split; [reflexivity|]. split; [exact P1|reflexivity].
Qed.
Print Assumptions C69_delivered.

(** In an established session, messages that the peer seals with successive sequence numbers are all answered, each with the handler's reply sealed
    as the next message of the other direction. *)
Theorem C69_conversation : forall seal tag opn n hist s t os rs apps i x k, run seal tag opn (start n) hist = (s, t, os) -> fresh_derived t -> gcm seal tag opn ->
  holds s i x -> enc_mac x = true -> ph x = Established -> dat x = Some k ->
  (count (req k) + N.of_nat (length rs) <= max_count)%N -> (count (rsp k) + N.of_nat (length rs) <= max_count)%N -> length apps = length rs ->
  (forall j r app, nth_error rs j = Some r -> nth_error apps j = Some app -> asks seal tag 254 (sid x) (req k) (count (req k) + N.of_nat j) app r) ->
  forall j r, nth_error rs j = Some r -> exists m', nth_error (snd (run seal tag opn s rs)) j = Some (Sent m') /\
    payload m' = secured seal tag (sid x) (dkey (rsp k)) (salt (rsp k)) (count (rsp k) + N.of_nat j) (reply (handle r) 126).
Proof.
  intros seal tag opn n hist s t os rs apps i x k R F G H EM PH DK C1 C2 LE ASK.
  destruct (salts seal tag opn n hist s t os i x true k R F H DK) as [L1 L2].
  apply (conversation seal tag opn G rs apps s i x k); try assumption. exact (run_uinv seal tag opn hist _ _ _ _ R (start_uinv n)).
Qed.
Print Assumptions C69_conversation.

(** FINISH in a handshake is answered under the handshake keys; then the session is established with the keys derived for it, and the
    handshake keys are gone. *)
Theorem C69_finish : forall seal tag opn n hist s t os r app i x k, run seal tag opn (start n) hist = (s, t, os) -> fresh_derived t -> gcm seal tag opn ->
  holds s i x -> enc_mac x = true -> ph x = Handshaking -> hs x = Some k -> (count (req k) < max_count)%N -> (count (rsp k) < max_count)%N ->
  asks seal tag 229 (sid x) (req k) (count (req k)) app r ->
  exists s' ev m', process seal tag opn s r = (s', ev, Sent m') /\
    payload m' = secured seal tag (sid x) (dkey (rsp k)) (salt (rsp k)) (count (rsp k)) (reply (handle r) 101) /\
    slots s' = upd (slots s) i (Some (Sess (sid x) true Established None (Some (fresh_keys (h_keys (handle r)))))).
Proof.
  intros seal tag opn n hist s t os r app i x k R F G H EM PH DK C1 C2 ASK.
  destruct (salts seal tag opn n hist s t os i x false k R F H DK) as [L1 L2].
  apply (finish seal tag opn G s r i x k app); try assumption. exact (run_uinv seal tag opn hist _ _ _ _ R (start_uinv n)).
Qed.
Print Assumptions C69_finish.

(** END_SESSION is answered in the session; then no session has its id, the other sessions are as they were, and what is sealed for it is refused. *)
Theorem C69_end : forall seal tag opn n hist s t os r app i x k, run seal tag opn (start n) hist = (s, t, os) -> fresh_derived t -> gcm seal tag opn ->
  holds s i x -> enc_mac x = true -> ph x = Established -> dat x = Some k -> (count (req k) < max_count)%N -> (count (rsp k) < max_count)%N ->
  asks seal tag 236 (sid x) (req k) (count (req k)) app r ->
  exists s' ev m', process seal tag opn s r = (s', ev, Sent m') /\
    payload m' = secured seal tag (sid x) (dkey (rsp k)) (salt (rsp k)) (count (rsp k)) (reply (handle r) 108) /\
    (forall j y, holds s' j y -> sid y <> sid x) /\ (forall j, j <> i -> nth_error (slots s') j = nth_error (slots s) j) /\
    forall r', encrypted r' = true -> le_value (window 0 4 (payload (message r'))) = sid x ->
      process seal tag opn s' r' = (set_last s' None, [], sent (put (message r') (error_reply 0 6))).
Proof.
  intros seal tag opn n hist s t os r app i x k R F G H EM PH DK C1 C2 ASK.
  destruct (salts seal tag opn n hist s t os i x true k R F H DK) as [L1 L2]. pose proof (run_uinv seal tag opn hist _ _ _ _ R (start_uinv n)) as U.
  destruct (end_session seal tag opn G s r i x k app U H EM PH DK L1 L2 C1 C2 ASK) as (s' & ev & m' & P & PM & SL). exists s', ev, m'.
  assert (NO : forall j y, holds s' j y -> sid y <> sid x).
  { intros j y HY E. destruct (holds_upd _ _ _ _ _ _ SL HY) as [(_ & Q & _)|(NE & HJ)]; [discriminate|]. apply NE. exact (proj1 U j i y x HJ H E). }
  split; [exact P|]. split; [exact PM|]. split; [exact NO|]. split; [intros j NE; rewrite SL; apply nth_error_upd_neq; auto|].
  intros r' EN ID. apply unknown; [exact EN|]. rewrite ID. exact NO.
Qed.
Print Assumptions C69_end.

(** A session starts only by a KEY_EXCHANGE outside of sessions, in the handshake with new keys. *)
Theorem C69_started : forall seal tag opn s r s' ev o i x, process seal tag opn s r = (s', ev, o) -> holds s' i x -> (forall y, holds s i y -> sid y <> sid x) ->
  encrypted r = false /\ nth 1 (payload (message r)) 0%N = 228%N /\ ph x = Handshaking /\ exists k, hs x = Some k /\ ev = [Derived k].
Proof. intros seal tag opn. apply opened_by. Qed.
Print Assumptions C69_started.

(** A session becomes established only by a message that was authenticated with its handshake key. *)
Theorem C69_established : forall seal tag opn n hist s t os r s' ev o i x y, run seal tag opn (start n) hist = (s, t, os) -> fresh_derived t ->
  process seal tag opn s r = (s', ev, o) -> holds s i x -> holds s' i y -> ph x = Handshaking -> ph y = Established ->
  sid y = sid x /\ encrypted r = true /\ exists k iv aad ct tg pt, hs x = Some k /\ In (Opened (dkey (req k)) iv aad ct tg pt) ev.
Proof.
  intros seal tag opn n hist s t os r s' ev o i x y R F P HX HY PX PY. pose proof (run_uinv seal tag opn hist _ _ _ _ R (start_uinv n)) as U.
  destruct (established_by seal tag opn s r s' ev o i x y P U HX HY PX PY) as (A & B & iv & aad & ct & tg & pt & C). split; [exact A|]. split; [exact B|].
  assert (HK : hs x <> None).
  { destruct (run_inv seal tag opn hist _ _ _ _ [] R F (start_inv n)) as [[_ PI] _]. pose proof (proj2 (PI i x HX)) as Q. rewrite PX in Q. exact Q. }
  destruct (hs x) as [k|]; [|destruct (HK eq_refl)]. exists k, iv, aad, ct, tg, pt. split; [reflexivity|exact C].
Qed.
Print Assumptions C69_established.

(** A session ends only by a message that was authenticated with its key, or with all sessions by a GET_VERSION. *)
Theorem C69_ended : forall seal tag opn n hist s t os r s' ev o i x, run seal tag opn (start n) hist = (s, t, os) ->
  process seal tag opn s r = (s', ev, o) -> holds s i x -> nth_error (slots s') i = Some None ->
  (exists iv aad ct tg pt, In (Opened (dkey (req (current x))) iv aad ct tg pt) ev) \/
  ((forall j y, ~ holds s' j y) /\ (encrypted r = false -> nth 1 (payload (message r)) 0%N = 132%N)).
Proof.
  intros seal tag opn n hist s t os r s' ev o i x R P HX HY. pose proof (run_uinv seal tag opn hist _ _ _ _ R (start_uinv n)) as U.
  exact (ended_by seal tag opn s r s' ev o i x P U HX HY).
Qed.
Print Assumptions C69_ended.

(** If max_response counts from the payload, nothing is read or written outside of the buffer. *)
Theorem C69_memory : forall seal tag opn s r s' ev o, process seal tag opn s r = (s', ev, o) -> gcm seal tag opn ->
  off (message r) + plen (message r) <= length (buf (message r)) ->
  off (message r) + maxr (message r) <= length (buf (message r)) -> 12 + length (h_rest (handle r)) <= maxr (message r) -> o <> Fault.
Proof.
  intros seal tag opn s r s' ev o P (L1 & L2 & _ & LO). apply (no_fault seal tag opn s r s' ev o P LO L1 L2).
Qed.
Print Assumptions C69_memory.

(** ** A concrete session: a toy cipher with tags of key and IV, KEY_EXCHANGE and FINISH *)
Definition toy_seal (k iv aad pt : list N) : list N := pt.
Definition toy_tag (k iv aad ct : list N) : list N := firstn 4 (k ++ repeat 0%N 4) ++ firstn 12 (iv ++ repeat 0%N 12).
Definition toy_open (k iv aad ct tg : list N) : option (list N) := if list_eq_dec N.eq_dec tg (toy_tag k iv aad ct) then Some ct else None.
Lemma toy_gcm : gcm toy_seal toy_tag toy_open.
Proof.
  split; [reflexivity|]. split; [intros k iv aad ct; unfold toy_tag; rewrite app_length, !firstn_length_le by (rewrite app_length, repeat_length; lia); reflexivity|].
  split; [intros k iv aad pt; unfold toy_open, toy_seal; destruct (list_eq_dec _ _ _) as [_|X]; [reflexivity|destruct (X eq_refl)]|].
  intros k iv aad ct tg pt E. unfold toy_open in E. destruct (list_eq_dec _ _ _); [|discriminate]. injection E as ->. reflexivity.
Qed.
Definition sl0 : list N := [9; 8; 7; 6; 5; 4; 3; 2; 1; 0; 1; 2]%N.
Definition k1 : keys := Keys (Dir [1%N] sl0 0) (Dir [2%N] sl0 0).
Definition k2 : keys := Keys (Dir [3%N] sl0 0) (Dir [4%N] sl0 0).
Definition in_frame (l : list N) : msg := Msg (repeat 0%N 8 ++ l ++ repeat 0%N (80 - length l)) 8 (length l) 80.
Definition answers (k : keys) (rest : list N) : handler := Handler true k 7 true 17 5 rest.
Definition key_exchange : request := Request false (in_frame [17; 228; 0; 0]%N) (answers k1 [0; 0]%N) all_works.
Definition finish_it : request := Request true (in_frame (secured toy_seal toy_tag 65543 [1%N] sl0 0 [17; 229; 0; 0]%N)) (answers k2 [0; 0]%N) all_works.
Definition ask (n : N) : request := Request true (in_frame (secured toy_seal toy_tag 65543 [3%N] sl0 n [17; 254; 9; 9]%N)) (answers k2 [6; 6; 6]%N) all_works.
Definition bye : request := Request true (in_frame (secured toy_seal toy_tag 65543 [3%N] sl0 2 [17; 236; 0; 0]%N)) (answers k2 [0; 0]%N) all_works.
Definition established : state := fst (fst (run toy_seal toy_tag toy_open (start 2) [key_exchange; finish_it])).

Example session_history : exists t os, run toy_seal toy_tag toy_open (start 2) [key_exchange; finish_it] = (established, t, os) /\ fresh_derived t /\
  holds established 0 (Sess 65543 true Established None (Some k2)) /\ length (seals t) = 1 /\ length (opens t) = 1.
Proof.
  eexists. eexists. split; [vm_compute; reflexivity|]. split; [|split; [vm_compute; reflexivity|split; vm_compute; reflexivity]].
  unfold fresh_derived. cbn. split; [repeat constructor; cbn; intros H; repeat destruct H as [H|H]; try discriminate; exact H|].
  split; [repeat constructor; cbn; intros H; repeat destruct H as [H|H]; try discriminate; exact H|]. repeat constructor.
Qed.
Example asks_met : forall j, j < 2 -> asks toy_seal toy_tag 254 65543 (req k2) (N.of_nat j) [17; 254; 9; 9]%N (ask (N.of_nat j)).
Proof. intros [|[|j]] L; [| |lia]; repeat split; vm_compute; try reflexivity; repeat constructor. Qed.
Example finish_met : let s := fst (fst (run toy_seal toy_tag toy_open (start 2) [key_exchange])) in
  holds s 0 (Sess 65543 true Handshaking (Some k1) None) /\ asks toy_seal toy_tag 229 65543 (req k1) 0 [17; 229; 0; 0]%N finish_it.
Proof. split; [vm_compute; reflexivity|]. repeat split; vm_compute; try reflexivity; repeat constructor. Qed.
Example bye_met : asks toy_seal toy_tag 236 65543 (req k2) 2 [17; 236; 0; 0]%N bye /\
  slots (fst (fst (run toy_seal toy_tag toy_open established [ask 0; ask 1; bye]))) = [None; None].
Proof. split; [|vm_compute; reflexivity]. repeat split; vm_compute; try reflexivity; repeat constructor. Qed.
Example talk : map (fun o => match o with Sent m => payload m | _ => [] end) (snd (run toy_seal toy_tag toy_open established [ask 0; ask 1; ask 1])) =
  [secured toy_seal toy_tag 65543 [4%N] sl0 0 [17; 126; 6; 6; 6]%N; secured toy_seal toy_tag 65543 [4%N] sl0 1 [17; 126; 6; 6; 6]%N; error_reply 0 6].
Proof. vm_compute. reflexivity. Qed.

(** A message that anyone can send, with the id of a session and no valid tag, stops the session: it counts in the sequence numbers, so that
    the next message of the peer, and all that follow, are refused (spdm_secure_session_manager.c:1042-1048). *)
Theorem C69_forgery_refuted : exists s forged,
  (exists hist t os, run toy_seal toy_tag toy_open (start 2) hist = (s, t, os) /\ fresh_derived t) /\
  snd (fst (process toy_seal toy_tag toy_open s forged)) = [] /\
  map (fun o => match o with Sent m => payload m | _ => [] end) (snd (run toy_seal toy_tag toy_open s [ask 0; ask 1])) =
    [secured toy_seal toy_tag 65543 [4%N] sl0 0 [17; 126; 6; 6; 6]%N; secured toy_seal toy_tag 65543 [4%N] sl0 1 [17; 126; 6; 6; 6]%N] /\
  map (fun o => match o with Sent m => payload m | _ => [] end) (snd (run toy_seal toy_tag toy_open s [forged; ask 0; ask 1])) =
    [error_reply 0 6; error_reply 0 6; error_reply 0 6].
Proof.
  exists established, (Request true (in_frame (header 65543 [0%N] ++ repeat 0%N 19)) (answers k2 []) all_works). split.
  - destruct session_history as (t & os & R & F & _). exists [key_exchange; finish_it], t, os. auto.
  - split; [vm_compute; reflexivity|]. split; vm_compute; reflexivity.
Qed.
Print Assumptions C69_forgery_refuted.

(** Over DOE, where max_response is the size of the whole buffer and the payload starts after the transport header, a reply that the handler's
    limit allows makes the tag be written past the end of the buffer (spdm_secure_session_manager.c:1127, doe_interface.c:149). *)
Theorem C69_overflow_refuted : exists s r,
  (exists hist t os, run toy_seal toy_tag toy_open (start 2) hist = (s, t, os) /\ fresh_derived t) /\
  maxr (message r) = length (buf (message r)) /\ off (message r) = 8 /\ plen (message r) + 8 <= length (buf (message r)) /\
  16 + length (reply (handle r) 126) <= maxr (message r) /\ snd (process toy_seal toy_tag toy_open s r) = Fault.
Proof.
  exists established, (Request true (Msg (repeat 0%N 8 ++ secured toy_seal toy_tag 65543 [3%N] sl0 0 [17; 254; 9; 9]%N ++ repeat 0%N 28) 8 28 64) (answers k2 (repeat 6%N 38)) all_works). split.
  - destruct session_history as (t & os & R & F & _). exists [key_exchange; finish_it], t, os. auto.
  - repeat split; try (vm_compute; reflexivity); vm_compute; lia.
Qed.
Print Assumptions C69_overflow_refuted.

(** If a reply is too long to be sealed, the error reply is written after the headers of the secured message instead of over them, and the
    bytes that are sent as the reply are not the error reply (cmd_interface_spdm_responder.c:161-171). *)
Theorem C69_error_reply_refuted : exists s r m',
  (exists hist t os, run toy_seal toy_tag toy_open (start 2) hist = (s, t, os) /\ fresh_derived t) /\
  snd (process toy_seal toy_tag toy_open s r) = Sent m' /\ plen m' = 4 /\ payload m' = error_reply 0 6 /\
  window (off (message r)) (plen m') (buf m') <> error_reply 0 6.
Proof.
  eexists established, (Request true (Msg (repeat 0%N 8 ++ secured toy_seal toy_tag 65543 [3%N] sl0 0 [17; 254; 9; 9]%N ++ repeat 0%N 28) 8 28 64) (answers k2 (repeat 6%N 40)) all_works). eexists. split.
  - destruct session_history as (t & os & R & F & _). exists [key_exchange; finish_it], t, os. auto.
  - split; [vm_compute; reflexivity|]. split; [vm_compute; reflexivity|]. split; [vm_compute; reflexivity|]. vm_compute. discriminate.
Qed.
Print Assumptions C69_error_reply_refuted.

(** The length of the application data may count its own two bytes, so that two bytes of the tag are taken for application data
    (spdm_secure_session_manager.c:948-955). *)
Theorem C69_padding_refuted : exists s r s' m' k iv aad ct tg pt,
  (exists hist t os, run toy_seal toy_tag toy_open (start 2) hist = (s, t, os) /\ fresh_derived t) /\
  decode toy_open s (message r) all_works = (s', Some m', [Opened k iv aad ct tg pt]) /\ payload m' = skipn 2 pt ++ firstn 2 tg /\ firstn 2 tg <> [0; 0]%N.
Proof.
  eexists established, (Request true (in_frame (header 65543 [17; 254]%N ++ [4; 0; 17; 254]%N ++ toy_tag [3%N] (iv_of sl0 0) [] [])) (answers k2 []) all_works). do 8 eexists. split.
  - destruct session_history as (t & os & R & F & _). exists [key_exchange; finish_it], t, os. auto.
  - split; [vm_compute; reflexivity|]. split; [vm_compute; reflexivity|]. vm_compute. discriminate.
Qed.
Print Assumptions C69_padding_refuted.
