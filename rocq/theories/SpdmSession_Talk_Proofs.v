(** Messages in sessions, and the bounds of buffers. *)
From Coq Require Import List NArith Bool Arith Lia ZArith.
From Verif Require Import Base SpdmSession_Model SpdmSession_Spec SpdmSession_Proofs SpdmSession_Run_Proofs SpdmSession_Wire_Proofs SpdmSession_Slot_Proofs.
From Verif Require FlashLog_Scan_Proofs.
Import ListNotations.

Lemma put_ok : forall m l, off m + length l <= length (buf m) ->
  exists m2, put m l = Some m2 /\ payload m2 = l /\ off m2 = off m /\ plen m2 = length l /\ maxr m2 = maxr m /\ length (buf m2) = length (buf m).
Proof.
  intros m l L. unfold put. replace (off m + length l <=? length (buf m)) with true by (symmetry; apply Nat.leb_le; exact L).
  eexists. split; [reflexivity|]. unfold payload. cbn [buf off plen maxr]. split; [apply window_splice; exact L|]. do 3 (split; [reflexivity|]). apply length_splice. exact L.
Qed.

Section Aead.
Variable seal : list N -> list N -> list N -> list N -> list N.
Variable tag : list N -> list N -> list N -> list N -> list N.
Variable opn : list N -> list N -> list N -> list N -> list N -> option (list N).

(** The state when the handler runs, and after the reply was sealed *)
Definition heard (s : state) (i : nat) (x : sess) : state :=
  set_last (set_slot (set_last s None) i (Some (set_current x (Keys (next (req (current x))) (rsp (current x)))))) (Some (sid x)).
Definition said (s : state) (i : nat) (x : sess) (code : N) : state :=
  let x1 := set_current x (Keys (req (current x)) (next (rsp (current x)))) in
  let s1 := set_slot s i (Some x1) in
  if (code =? 101)%N then
    match ph x1 with
    | Handshaking => set_slot s1 i (Some (Sess (sid x1) (enc_mac x1) Established None (dat x1)))
    | Established => s1
    end
  else if (code =? 108)%N then release s1 (sid x)
  else s1.

Section Good.
Hypothesis G : gcm seal tag opn.

Lemma exchange : forall s r i x app code s2 l ev2 x2, UInv s -> holds s i x -> enc_mac x = true ->
  length (salt (req (current x))) = 12 -> length (salt (rsp (current x))) = 12 -> (count (req (current x)) < max_count)%N -> (count (rsp (current x)) < max_count)%N ->
  encrypted r = true -> wks r = all_works -> off (message r) + plen (message r) <= length (buf (message r)) ->
  payload (message r) = secured seal tag (sid x) (dkey (req (current x))) (salt (req (current x))) (count (req (current x))) app ->
  2 <= length app -> nth 1 app 0%N = code -> (N.of_nat (length app) + 18 < 65536)%N ->
  length l + 24 <= maxr (message r) -> off (message r) + maxr (message r) <= length (buf (message r)) -> 2 <= length l ->
  dispatch (heard s i x) true code (handle r) = (s2, l, ev2) -> last s2 = Some (sid x) -> find s2 (sid x) = Some (i, x2) -> enc_mac x2 = true -> rsp (current x2) = rsp (current x) ->
  exists e1 e3 m', process seal tag opn s r = (said s2 i x2 (nth 1 l 0%N), e1 ++ ev2 ++ e3, Sent m') /\
    payload m' = secured seal tag (sid x) (dkey (rsp (current x))) (salt (rsp (current x))) (count (rsp (current x))) l.
Proof.
  intros s r i x app code s2 l ev2 x2 U HX EM LS1 LS2 C1 C2 EN W FIT PAY LA CD SM MX BF LL DI L2 F2 EM2 RS.
  destruct (proj2 U i x HX) as [BD NZ].
  destruct (decrypt_ok seal tag opn G (message r) (req (current x)) (sid x) app LS1 FIT PAY SM) as (m1 & D1 & P1 & O1 & N1 & X1 & B1).
  unfold process. cbv zeta. rewrite EN, W.
  assert (DEC : exists e1, decode opn (set_last s None) (message r) all_works = (heard s i x, Some m1, e1)).
  { unfold decode. cbv zeta. assert (PL : plen (message r) = length app + 24).
    { pose proof (f_equal (@length N) PAY) as H. unfold payload in H. rewrite length_window, (length_secured seal tag opn G) in H. lia. }
    replace (plen (message r) <? 4) with false by (symmetry; apply Nat.ltb_ge; lia).
    assert (WI : window 0 4 (payload (message r)) = le32 (sid x)) by (rewrite PAY; reflexivity).
    rewrite WI, FlashLog_Scan_Proofs.le_value_le32 by exact BD.
    change (find (set_last (set_last s None) None) (sid x)) with (find s (sid x)). rewrite (find_holds s i x U HX).
    replace (max_count <=? count (req (current x)))%N with false by (symmetry; apply N.leb_gt; exact C1). rewrite EM, D1. eexists. reflexivity. }
  destruct DEC as (e1 & DEC). rewrite DEC. rewrite N1. replace (length app <? 2) with false by (symmetry; apply Nat.ltb_ge; exact LA).
  rewrite P1, CD, DI.
  destruct (put_ok m1 l) as (m2 & PU & P2 & O2 & N2 & X2 & B2); [rewrite O1, B1; lia|]. rewrite PU.
  assert (ENC : exists e3 m3, encode seal tag s2 m2 all_works = (said s2 i x2 (nth 1 l 0%N), Some m3, true, e3) /\
    payload m3 = secured seal tag (sid x) (dkey (rsp (current x))) (salt (rsp (current x))) (count (rsp (current x))) l).
  { unfold encode. cbv zeta. rewrite L2, F2, RS. replace (max_count <=? count (rsp (current x)))%N with false by (symmetry; apply N.leb_gt; exact C2). rewrite EM2.
    destruct (find_spec _ _ _ _ F2) as (_ & SX & _).
    destruct (encrypt_ok seal tag opn G m2 (rsp (current x)) (sid x2) LS2) as (m3 & E3 & P3 & _).
    - rewrite O2, O1. lia.
    - rewrite O2, O1, N2, B2, B1. lia.
    - rewrite P2, X2, X1. exact MX.
    - rewrite P2, O2, O1, B2, B1. lia.
    - rewrite E3, (nth_put seal tag opn m1 l m2 1 PU) by lia. unfold said. rewrite RS, SX. eexists. exists m3. split; [reflexivity|]. rewrite P3, P2, SX. reflexivity. }
  destruct ENC as (e3 & m3 & ENC & P3). rewrite ENC. exists e1, e3, m3. split; [reflexivity|exact P3].
Qed.

Lemma heard_holds : forall s i x, UInv s -> holds s i x -> UInv (heard s i x) /\ find (heard s i x) (sid x) = Some (i, set_current x (Keys (next (req (current x))) (rsp (current x)))).
Proof.
  intros s i x U H. split.
  - eapply (uinv_upd s); [exact U|exact H|reflexivity|]. intros y Y. injection Y as <-. apply sid_current.
  - change (find (set_slot s i (Some (set_current x (Keys (next (req (current x))) (rsp (current x)))))) (sid x) = Some (i, set_current x (Keys (next (req (current x))) (rsp (current x))))).
    apply (find_set s (sid x) i x); [apply find_holds; assumption|apply sid_current].
Qed.
Lemma heard_session : forall s i x, UInv s -> holds s i x ->
  in_session (heard s i x) (ph x) = Some (i, set_current x (Keys (next (req (current x))) (rsp (current x)))).
Proof.
  intros s i x U H. destruct (heard_holds s i x U H) as [_ F]. unfold in_session. change (last (heard s i x)) with (Some (sid x)). cbv iota beta. rewrite F, ph_current.
  destruct (ph x); reflexivity.
Qed.
Lemma upd_upd : forall A (l : list A) a p q, upd (upd l a p) a q = upd l a q.
Proof. clear. induction l as [|z l IH]; intros [|a] p q; cbn [upd]; try reflexivity. f_equal. apply IH. Qed.

(** A vendor defined request, END_SESSION and FINISH *)
Lemma vendor : forall s r i x k app, UInv s -> holds s i x -> enc_mac x = true -> ph x = Established -> dat x = Some k ->
  length (salt (req k)) = 12 -> length (salt (rsp k)) = 12 -> (count (req k) < max_count)%N -> (count (rsp k) < max_count)%N ->
  asks seal tag 254 (sid x) (req k) (count (req k)) app r ->
  exists s' ev m', process seal tag opn s r = (s', ev, Sent m') /\
    payload m' = secured seal tag (sid x) (dkey (rsp k)) (salt (rsp k)) (count (rsp k)) (reply (handle r) 126) /\
    slots s' = upd (slots s) i (Some (Sess (sid x) true Established (hs x) (Some (Keys (next (req k)) (next (rsp k)))))).
Proof.
  intros s r i x k app U HX EM PH DK LS1 LS2 C1 C2 (EN & W & FIT & PAY & LA & CD & SM & OK & MX & BF).
  assert (CU : current x = k) by (unfold current; rewrite PH, DK; reflexivity).
  destruct (heard_holds s i x U HX) as [U1 F1]. pose proof (heard_session s i x U HX) as HS. rewrite PH in HS.
  assert (DI : dispatch (heard s i x) true 254 (handle r) = (heard s i x, reply (handle r) 126, [])) by (unfold dispatch; cbv zeta; change (254 =? 132)%N with false; change (254 =? 228)%N with false; change (254 =? 229)%N with false; change (254 =? 236)%N with false; change (254 =? 254)%N with true; cbv iota; rewrite HS, OK; reflexivity).
  edestruct (exchange s r i x app 254%N) with (1 := U) (2 := HX) (3 := EM) (13 := CD) (16 := BF) (18 := DI) (20 := F1) as (e1 & e3 & m' & P & PM); rewrite ?CU; try assumption; try reflexivity.
  - unfold reply. cbn [length]. lia.
  - unfold reply. cbn [length]. lia.
  - apply enc_current || (rewrite enc_current; exact EM).
  - rewrite current_current. reflexivity.
  - rewrite CU in *. eexists. exists (e1 ++ [] ++ e3), m'. split; [exact P|]. split; [exact PM|].
    change (nth 1 (reply (handle r) 126) 0%N) with 126%N. unfold said. cbv zeta. change (126 =? 101)%N with false. change (126 =? 108)%N with false. cbv iota.
    unfold heard. cbn [set_slot set_last slots]. rewrite upd_upd. do 2 f_equal. rewrite current_current. unfold set_current. rewrite PH. cbn [sid enc_mac ph hs dat req rsp]. rewrite EM. reflexivity.
Qed.

Lemma end_session : forall s r i x k app, UInv s -> holds s i x -> enc_mac x = true -> ph x = Established -> dat x = Some k ->
  length (salt (req k)) = 12 -> length (salt (rsp k)) = 12 -> (count (req k) < max_count)%N -> (count (rsp k) < max_count)%N ->
  asks seal tag 236 (sid x) (req k) (count (req k)) app r ->
  exists s' ev m', process seal tag opn s r = (s', ev, Sent m') /\
    payload m' = secured seal tag (sid x) (dkey (rsp k)) (salt (rsp k)) (count (rsp k)) (reply (handle r) 108) /\
    slots s' = upd (slots s) i None.
Proof.
  intros s r i x k app U HX EM PH DK LS1 LS2 C1 C2 (EN & W & FIT & PAY & LA & CD & SM & OK & MX & BF).
  assert (CU : current x = k) by (unfold current; rewrite PH, DK; reflexivity).
  destruct (heard_holds s i x U HX) as [U1 F1]. pose proof (heard_session s i x U HX) as HS. rewrite PH in HS.
  assert (DI : dispatch (heard s i x) true 236 (handle r) = (heard s i x, reply (handle r) 108, [])) by (unfold dispatch; cbv zeta; change (236 =? 132)%N with false; change (236 =? 228)%N with false; change (236 =? 229)%N with false; change (236 =? 236)%N with true; cbv iota; rewrite HS, OK; reflexivity).
  edestruct (exchange s r i x app 236%N) with (1 := U) (2 := HX) (3 := EM) (13 := CD) (16 := BF) (18 := DI) (20 := F1) as (e1 & e3 & m' & P & PM); rewrite ?CU; try assumption; try reflexivity.
  - unfold reply. cbn [length]. lia.
  - unfold reply. cbn [length]. lia.
  - apply enc_current || (rewrite enc_current; exact EM).
  - rewrite current_current. reflexivity.
  - eexists. exists (e1 ++ [] ++ e3), m'. split; [exact P|]. split; [rewrite CU in PM; exact PM|].
    change (nth 1 (reply (handle r) 108) 0%N) with 108%N. unfold said. cbv zeta. change (108 =? 101)%N with false. change (108 =? 108)%N with true. cbv iota.
    unfold release. rewrite sid_current. rewrite (find_set _ _ _ _ (set_current (set_current x (Keys (next (req (current x))) (rsp (current x)))) (Keys (req (current (set_current x (Keys (next (req (current x))) (rsp (current x)))))) (next (rsp (current (set_current x (Keys (next (req (current x))) (rsp (current x))))))))) F1) by (rewrite !sid_current; reflexivity).
    unfold heard. cbn [set_slot set_last slots]. rewrite !upd_upd. reflexivity.
Qed.

Lemma finish : forall s r i x k app, UInv s -> holds s i x -> enc_mac x = true -> ph x = Handshaking -> hs x = Some k ->
  length (salt (req k)) = 12 -> length (salt (rsp k)) = 12 -> (count (req k) < max_count)%N -> (count (rsp k) < max_count)%N ->
  asks seal tag 229 (sid x) (req k) (count (req k)) app r ->
  exists s' ev m', process seal tag opn s r = (s', ev, Sent m') /\
    payload m' = secured seal tag (sid x) (dkey (rsp k)) (salt (rsp k)) (count (rsp k)) (reply (handle r) 101) /\
    slots s' = upd (slots s) i (Some (Sess (sid x) true Established None (Some (fresh_keys (h_keys (handle r)))))).
Proof.
  intros s r i x k app U HX EM PH DK LS1 LS2 C1 C2 (EN & W & FIT & PAY & LA & CD & SM & OK & MX & BF).
  assert (CU : current x = k) by (unfold current; rewrite PH, DK; reflexivity).
  destruct (heard_holds s i x U HX) as [U1 F1]. pose proof (heard_session s i x U HX) as HS. rewrite PH in HS.
  set (x1 := set_current x (Keys (next (req (current x))) (rsp (current x)))) in *.
  set (x2 := Sess (sid x1) (enc_mac x1) (ph x1) (hs x1) (Some (fresh_keys (h_keys (handle r))))).
  assert (DI : dispatch (heard s i x) true 229 (handle r) = (set_slot (heard s i x) i (Some x2), reply (handle r) 101, [Derived (fresh_keys (h_keys (handle r)))])) by (unfold dispatch; cbv zeta; change (229 =? 132)%N with false; change (229 =? 228)%N with false; change (229 =? 229)%N with true; cbv iota; rewrite HS, OK; reflexivity).
  assert (F2 : find (set_slot (heard s i x) i (Some x2)) (sid x) = Some (i, x2)) by (apply (find_set _ _ _ x1); [exact F1|apply sid_current]).
  edestruct (exchange s r i x app 229%N) with (1 := U) (2 := HX) (3 := EM) (13 := CD) (16 := BF) (18 := DI) (20 := F2) as (e1 & e3 & m' & P & PM); rewrite ?CU; try assumption; try reflexivity.
  - unfold reply. cbn [length]. lia.
  - unfold reply. cbn [length]. lia.
  - cbn [x2 enc_mac]. unfold x1. rewrite enc_current. exact EM.
  - unfold x2, x1, current, set_current. rewrite PH. cbn [ph]. rewrite DK. cbn [the ph hs rsp]. reflexivity.
  - eexists. exists (e1 ++ [Derived (fresh_keys (h_keys (handle r)))] ++ e3), m'. split; [exact P|]. split; [rewrite CU in PM; exact PM|].
    change (nth 1 (reply (handle r) 101) 0%N) with 101%N. unfold said. cbv zeta. change (101 =? 101)%N with true. cbv iota.
    assert (P2 : ph x2 = Handshaking) by (cbn [x2 ph]; unfold x1; rewrite ph_current; exact PH).
    rewrite ph_current, P2. unfold heard. cbn [set_slot set_last slots]. rewrite !upd_upd. do 2 f_equal.
    rewrite sid_current, enc_current. cbn [x2 sid enc_mac]. unfold x1 at 1 2. rewrite sid_current, enc_current, EM. f_equal.
    unfold set_current. rewrite P2. reflexivity.
Qed.

Lemma conversation : forall rs apps s i x k, UInv s -> holds s i x -> enc_mac x = true -> ph x = Established -> dat x = Some k ->
  length (salt (req k)) = 12 -> length (salt (rsp k)) = 12 -> (count (req k) + N.of_nat (length rs) <= max_count)%N -> (count (rsp k) + N.of_nat (length rs) <= max_count)%N ->
  length apps = length rs -> (forall j r app, nth_error rs j = Some r -> nth_error apps j = Some app -> asks seal tag 254 (sid x) (req k) (count (req k) + N.of_nat j) app r) ->
  forall j r, nth_error rs j = Some r -> exists m', nth_error (snd (run seal tag opn s rs)) j = Some (Sent m') /\
    payload m' = secured seal tag (sid x) (dkey (rsp k)) (salt (rsp k)) (count (rsp k) + N.of_nat j) (reply (handle r) 126).
Proof.
  induction rs as [|r0 rs IH]; intros apps s i x k U HX EM PH DK LS1 LS2 C1 C2 LE ASK j r J; [destruct j; discriminate|].
  destruct apps as [|app apps]; [discriminate|]. cbn [length] in *.
  pose proof (ASK 0 r0 app eq_refl eq_refl) as A0. change (N.of_nat 0) with 0%N in A0. rewrite N.add_0_r in A0.
  destruct (vendor s r0 i x k app U HX EM PH DK LS1 LS2) as (s' & ev & m' & P & PM & SL); [lia|lia|exact A0|].
  cbn [run]. rewrite P. destruct (run seal tag opn s' rs) as [[s2 e2] o2] eqn:R. cbn [snd].
  destruct j as [|j].
  - injection J as <-. exists m'. split; [reflexivity|]. change (N.of_nat 0) with 0%N. rewrite N.add_0_r. exact PM.
  - cbn [nth_error] in *. assert (U' : UInv s') by (eapply process_uinv; [exact P|exact U]).
    assert (H' : holds s' i (Sess (sid x) true Established (hs x) (Some (Keys (next (req k)) (next (rsp k)))))) by (unfold holds; rewrite SL; apply nth_error_upd_eq; eapply nth_error_some_lt; exact HX).
    destruct (IH apps s' i _ _ U' H' eq_refl eq_refl eq_refl) with (j := j) (r := r) as (m2 & M1 & M2); cbn [req rsp next salt count sid]; try assumption; try lia.
    + intros j' r' app' J1 J2. pose proof (ASK (S j') r' app' J1 J2) as A. replace (count (req k) + 1 + N.of_nat j')%N with (count (req k) + N.of_nat (S j'))%N by lia. exact A.
    + rewrite R in M1. exists m2. split; [exact M1|]. rewrite M2. cbn [req rsp next dkey salt count sid]. f_equal. lia.
Qed.
End Good.

(** Messages that name no session *)
Lemma unknown : forall s r, encrypted r = true -> (forall i x, holds s i x -> sid x <> le_value (window 0 4 (payload (message r)))) ->
  process seal tag opn s r = (set_last s None, [], sent (put (message r) (error_reply 0 6))).
Proof.
  intros s r EN NO. unfold process. cbv zeta. rewrite EN. unfold decode. cbv zeta. destruct (plen (message r) <? 4); [reflexivity|].
  change (set_last (set_last (set_last s None) None)) with (set_last s). rewrite (find_none (set_last (set_last s None) None)) by exact NO. reflexivity.
Qed.

(** ** Memory *)
Lemma dispatch_length : forall s e c h s2 l ev, dispatch s e c h = (s2, l, ev) -> length l <= 4 + length (h_rest h).
Proof.
  intros s e c h s2 l ev E. unfold dispatch in E. cbv zeta in E.
  assert (A : forall v, length (reply h v) <= 4 + length (h_rest h)) by (intro v; unfold reply; cbn [length]; lia).
  assert (B : length (error_reply (h_ver h) (h_code h)) <= 4 + length (h_rest h)) by (cbn [error_reply length]; lia).
  destruct (c =? 132)%N; [destruct (h_ok h); injection E as <- <- <-; auto|].
  destruct (c =? 228)%N; [destruct (last s); [|destruct (h_ok h); [destruct (create _ _ _ _)|]]; injection E as <- <- <-; auto|].
  destruct (c =? 229)%N; [destruct (in_session s Handshaking) as [[i x]|]; [destruct (h_ok h)|]; injection E as <- <- <-; auto|].
  destruct (c =? 236)%N; [destruct (in_session s Established) as [[i x]|]; [destruct (h_ok h)|]; injection E as <- <- <-; auto|].
  destruct (c =? 254)%N; [destruct e; [destruct (in_session s Established)|]; try destruct (h_ok h); injection E as <- <- <-; auto|].
  destruct (_ && _); injection E as <- <- <-; auto.
Qed.
Lemma sent_put : forall m l, off m + length l <= length (buf m) -> sent (put m l) <> Fault.
Proof. intros m l L. destruct (put_ok m l L) as (m2 & -> & _). discriminate. Qed.

Lemma no_fault : forall s r s' ev o, process seal tag opn s r = (s', ev, o) ->
  (forall k iv aad ct tg pt, opn k iv aad ct tg = Some pt -> length pt = length ct) ->
  (forall k iv aad pt, length (seal k iv aad pt) = length pt) -> (forall k iv aad ct, length (tag k iv aad ct) = 16) ->
  off (message r) + plen (message r) <= length (buf (message r)) ->
  off (message r) + maxr (message r) <= length (buf (message r)) -> 12 + length (h_rest (handle r)) <= maxr (message r) -> o <> Fault.
Proof.
  intros s r s' ev o E LO L1 L2 FIT MX RE. unfold process in E. cbv zeta in E.
  destruct (if encrypted r then _ else _) as [[s1 d] ev1] eqn:D.
  assert (K1 : forall m1, d = Some m1 -> length (buf m1) = length (buf (message r)) /\ off m1 <= off (message r) + 8 /\ (encrypted r = true -> off m1 = off (message r) + 8) /\ maxr m1 = maxr (message r)).
  { intros m1 ->. destruct (encrypted r); [|injection D as _ <- _; split; [reflexivity|]; split; [lia|]; split; [discriminate|reflexivity]].
    unfold decode in D. cbv zeta in D. destruct (plen (message r) <? 4); [discriminate|]. destruct (find _ _) as [[i x]|]; [|discriminate].
    destruct (max_count <=? _)%N; [discriminate|]. destruct (enc_mac x); [|discriminate]. destruct (decrypt opn _ _ _) as [m' e'] eqn:DE. injection D as _ -> _.
    unfold decrypt in DE. cbv zeta in DE. destruct (plen (message r) <? 6 + 16) eqn:Q1; [discriminate|]. destruct (plen (message r) - 6 <? _) eqn:Q2; [discriminate|].
    destruct (_ <? 16) eqn:Q3; [discriminate|]. destruct (negb _); [discriminate|]. destruct (opn _ _ _ _ _) as [pt|] eqn:O; [|discriminate].
    match type of DE with context [if ?b then None else _] => destruct b end; [discriminate|]. injection DE as <- _. cbn [buf off maxr]. split; [|split; [lia|split; [reflexivity|reflexivity]]].
    apply LO in O. rewrite length_window in O. apply Nat.ltb_ge in Q1, Q2, Q3. unfold payload in O. rewrite length_window in O. apply length_splice. lia. }
  destruct d as [m1|]; [|injection E as <- <- <-; apply sent_put; cbn [error_reply length]; lia].
  destruct (K1 m1 eq_refl) as (B1 & O1 & O1' & X1). destruct (plen m1 <? 2); [injection E as <- <- <-; discriminate|].
  destruct (dispatch s1 (encrypted r) (nth 1 (payload m1) 0%N) (handle r)) as [[s2 l] ev2] eqn:DI. pose proof (dispatch_length _ _ _ _ _ _ _ DI) as LL.
  destruct (put_ok m1 l) as (m2 & PU & P2 & O2 & N2 & X2 & B2); [lia|]. rewrite PU in E. destruct (encrypted r); [|injection E as <- <- <-; discriminate].
  destruct (encode seal tag s2 m2 (wks r)) as [[[s3 m3] ok] ev3] eqn:EN. injection E as <- <- <-. specialize (O1' eq_refl).
  assert (K3 : exists m, m3 = Some m /\ length (buf m) = length (buf m2) /\ off m <= off m2).
  { unfold encode in EN. cbv zeta in EN. destruct (last s2) as [id|]; [|injection EN as <- <- <- <-; eauto]. destruct (find s2 id) as [[i x]|]; [|injection EN as <- <- <- <-; eauto].
    destruct (max_count <=? _)%N; [injection EN as <- <- <- <-; eauto|]. destruct (enc_mac x); [|injection EN as <- <- <- <-; eauto].
    destruct (encrypt seal tag m2 _ _ _) as [[m' ok'] e'] eqn:ENC.
    assert (K : exists m, m' = Some m /\ length (buf m) = length (buf m2) /\ off m <= off m2).
    { clear EN. unfold encrypt in ENC. cbv zeta in ENC. destruct (maxr m2 <? _) eqn:Q; [injection ENC as <- <- <-; eauto|]. apply Nat.ltb_ge in Q.
      rewrite Nat.min_l in ENC by lia. set (ad := le32 (sid x) ++ le16 _) in ENC.
      assert (LA : length (ad ++ le16 (N.of_nat (plen m2))) = 8) by reflexivity.
      assert (LB : length (splice (buf m2) (off m2 - 8) (ad ++ le16 (N.of_nat (plen m2)))) = length (buf m2)) by (apply length_splice; lia). clearbody ad.
      set (sb := splice (buf m2) (off m2 - 8) (ad ++ le16 (N.of_nat (plen m2)))) in *. clearbody sb.
      destruct (negb (k_seal _)); [injection ENC as <- <- <-; eexists; split; [reflexivity|]; cbn [buf off]; split; [exact LB|lia]|].
      destruct (negb (w_seal _)); [injection ENC as <- <- <-; eexists; split; [reflexivity|]; cbn [buf off]; split; [exact LB|lia]|].
      rewrite LB in ENC. destruct (_ <? _) eqn:Q2 in ENC; [apply Nat.ltb_lt in Q2; lia|]. injection ENC as <- <- <-. eexists; split; [reflexivity|]. cbn [buf off].
      split; [|lia]. rewrite length_splice; [exact LB|]. rewrite app_length, L1, L2, length_window, LB. lia. }
    destruct ok'; injection EN as <- <- <- <-; exact K. }
  destruct K3 as (m & -> & B3 & O3). destruct ok; [discriminate|]. apply sent_put. cbn [error_reply length]. lia.
Qed.
End Aead.
