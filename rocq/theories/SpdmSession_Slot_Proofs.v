(** What requests do to the slots of sessions. *)
From Coq Require Import List NArith Bool Arith Lia ZArith.
From Verif Require Import Base SpdmSession_Model SpdmSession_Spec SpdmSession_Proofs SpdmSession_Run_Proofs SpdmSession_Wire_Proofs.
Import ListNotations.

Definition UInv (s : state) : Prop :=
  (forall i j x y, holds s i x -> holds s j y -> sid x = sid y -> i = j) /\ (forall i x, holds s i x -> (sid x < 2 ^ 32)%N /\ sid x <> 0%N).

Lemma find_from_some : forall l n i x, nth_error l i = Some (Some x) -> exists j y, find_from n l (sid x) = Some (j, y).
Proof.
  induction l as [|[z|] l IH]; intros n [|i] x E; try discriminate; cbn [nth_error find_from] in *.
  - injection E as ->. rewrite N.eqb_refl. eauto.
  - destruct (sid z =? sid x)%N; [eauto|]. eapply IH. exact E.
  - eapply IH. exact E.
Qed.
Lemma find_holds : forall s i x, UInv s -> holds s i x -> find s (sid x) = Some (i, x).
Proof.
  intros s i x [U B] H. destruct (find s (sid x)) as [[j y]|] eqn:F.
  - destruct (find_spec _ _ _ _ F) as (N1 & SI & _). assert (j = i) by (eapply U; eassumption). subst j. unfold holds in H. congruence.
  - exfalso. unfold find in F. destruct (sid x =? 0)%N eqn:Z; [apply N.eqb_eq in Z; exact (proj2 (B i x H) Z)|].
    destruct (find_from_some _ 0 _ _ H) as (j & y & E). congruence.
Qed.
Lemma find_none : forall s id, (forall i x, holds s i x -> sid x <> id) -> find s id = None.
Proof. intros s id H. destruct (find s id) as [[i x]|] eqn:F; [|reflexivity]. destruct (find_spec _ _ _ _ F) as (N1 & SI & _). exfalso. exact (H i x N1 SI). Qed.
Lemma find_none_holds : forall s id i x, find s id = None -> id <> 0%N -> holds s i x -> sid x <> id.
Proof.
  intros s id i x F NZ H E. subst id. unfold find in F. replace (sid x =? 0)%N with false in F by (symmetry; apply N.eqb_neq; exact NZ).
  destruct (find_from_some _ 0 _ _ H) as (j & y & Q). congruence.
Qed.

Lemma holds_upd : forall s l i o j y, slots s = upd l i o -> holds s j y -> (j = i /\ o = Some y /\ i < length l) \/ (j <> i /\ nth_error l j = Some (Some y)).
Proof.
  intros s l i o j y E H. unfold holds in H. rewrite E in H. destruct (Nat.eq_dec j i) as [->|NE].
  - destruct (Nat.lt_ge_cases i (length l)) as [L|L].
    + rewrite nth_error_upd_eq in H by exact L. left. split; [reflexivity|]. split; congruence.
    + exfalso. assert (X : nth_error (upd l i o) i = None) by (apply nth_error_None; rewrite length_upd; exact L). congruence.
  - rewrite nth_error_upd_neq in H by auto. right. auto.
Qed.
Lemma uinv_upd : forall s s' i x o, UInv s -> holds s i x -> slots s' = upd (slots s) i o -> (forall y, o = Some y -> sid y = sid x) -> UInv s'.
Proof.
  intros s s' i x o [U B] H E O.
  assert (K : forall j y, holds s' j y -> exists z, holds s j z /\ sid z = sid y).
  { intros j y HY. destruct (holds_upd _ _ _ _ _ _ E HY) as [(-> & EO & _)|(_ & HJ)]; [exists x; split; [exact H|symmetry; apply O; exact EO]|exists y; split; [exact HJ|reflexivity]]. }
  split.
  - intros a b y z HY HZ S. destruct (K a y HY) as (y0 & Y0 & YE). destruct (K b z HZ) as (z0 & Z0 & ZE). eapply U; [exact Y0|exact Z0|congruence].
  - intros a y HY. destruct (K a y HY) as (y0 & Y0 & YE). rewrite <- YE. exact (B a y0 Y0).
Qed.
Lemma uinv_same : forall s s', slots s' = slots s -> UInv s -> UInv s'.
Proof. intros s s' E [U B]. unfold UInv, holds in *. rewrite E. split; assumption. Qed.

Section Aead.
Variable seal : list N -> list N -> list N -> list N -> list N.
Variable tag : list N -> list N -> list N -> list N -> list N.
Variable opn : list N -> list N -> list N -> list N -> list N -> option (list N).

Lemma sid_current : forall x k, sid (set_current x k) = sid x.
Proof. intros x k. unfold set_current. destruct (ph x); reflexivity. Qed.
Lemma ph_current : forall x k, ph (set_current x k) = ph x.
Proof. intros x k. unfold set_current. destruct (ph x) eqn:E; cbn [ph]; congruence. Qed.
Lemma enc_current : forall x k, enc_mac (set_current x k) = enc_mac x.
Proof. intros x k. unfold set_current. destruct (ph x); reflexivity. Qed.
Lemma current_current : forall x k, current (set_current x k) = k.
Proof. intros x k. unfold set_current, current. destruct (ph x) eqn:E; reflexivity. Qed.

Lemma decode_slots : forall s m w s1 o ev, decode opn s m w = (s1, o, ev) ->
  (slots s1 = slots s /\ o = None /\ last s1 = None /\ ev = []) \/
  exists i x, holds s i x /\ slots s1 = upd (slots s) i (Some (set_current x (Keys (next (req (current x))) (rsp (current x))))) /\
    (o = None \/ (last s1 = Some (sid x) /\ exists iv aad ct tg pt, ev = [Opened (dkey (req (current x))) iv aad ct tg pt])).
Proof.
  intros s m w s1 o ev E. unfold decode in E. cbv zeta in E.
  destruct (plen m <? 4); [injection E as <- <- <-; left; auto|].
  destruct (find (set_last s None) _) as [[i x]|] eqn:F; [|injection E as <- <- <-; left; auto].
  destruct (max_count <=? count (req (current x)))%N eqn:C; [injection E as <- <- <-; left; auto|].
  right. exists i, x. destruct (find_spec _ _ _ _ F) as (N1 & _). split; [exact N1|].
  destruct (enc_mac x).
  - destruct (decrypt opn m (req (current x)) w) as [m' ev'] eqn:D. injection E as <- <- <-. split; [reflexivity|].
    destruct (decrypt_events _ _ _ _ _ _ D) as [[-> ->]|(aad & ct & tg & pt & -> & O)]; [left; reflexivity|right].
    split; [reflexivity|]. do 5 eexists. reflexivity.
  - injection E as <- <- <-. split; [reflexivity|left; reflexivity].
Qed.

Lemma in_session_spec : forall s p i x, in_session s p = Some (i, x) -> last s = Some (sid x) /\ find s (sid x) = Some (i, x) /\ ph x = p.
Proof.
  intros s p i x E. unfold in_session in E. destruct (last s) as [id|]; [|discriminate]. destruct (find s id) as [[j y]|] eqn:F; [|discriminate].
  destruct (find_spec _ _ _ _ F) as (_ & <- & _). destruct (ph y) eqn:PH, p; try discriminate; injection E as <- <-; auto.
Qed.

Lemma dispatch_slots : forall s e c h s2 l ev, dispatch s e c h = (s2, l, ev) ->
  (slots s2 = slots s /\ last s2 = last s /\ nth 1 l 0%N <> 101%N) \/
  (c = 132%N /\ s2 = reset s /\ nth 1 l 0%N = 4%N) \/
  (c = 228%N /\ last s = None /\ last s2 = None /\ ev = [Derived (fresh_keys (h_keys h))] /\
    exists i x, nth_error (slots s) i = Some None /\ (forall j y, holds s j y -> sid y <> sid x) /\ sid x <> 0%N /\ (sid x < 2 ^ 32)%N /\ ph x = Handshaking /\ hs x = Some (fresh_keys (h_keys h)) /\ slots s2 = upd (slots s) i (Some x)) \/
  (c = 229%N /\ exists i x, last s = Some (sid x) /\ last s2 = last s /\ find s (sid x) = Some (i, x) /\ ph x = Handshaking /\ nth 1 l 0%N = 101%N /\
    slots s2 = upd (slots s) i (Some (Sess (sid x) (enc_mac x) (ph x) (hs x) (Some (fresh_keys (h_keys h)))))).
Proof.
  intros s e c h s2 l ev E. unfold dispatch in E. cbv zeta in E.
  destruct (c =? 132)%N eqn:C1.
  { apply N.eqb_eq in C1. destruct (h_ok h); injection E as <- <- <-; [right; left; auto|left; repeat split; discriminate]. }
  destruct (c =? 228)%N eqn:C2.
  { apply N.eqb_eq in C2. destruct (last s) eqn:LA; [injection E as <- <- <-; left; rewrite LA; repeat split; discriminate|].
    destruct (h_ok h); [|injection E as <- <- <-; left; rewrite LA; repeat split; discriminate].
    destruct (create s _ _ _) as [s1|] eqn:CR; [|injection E as <- <- <-; left; rewrite LA; repeat split; discriminate].
    injection E as <- <- <-. unfold create in CR.
    assert (BD : ((local s + 1) mod 2 ^ 16 * 2 ^ 16 + h_req h mod 2 ^ 16 < 2 ^ 32)%N) by (change (2 ^ 16)%N with 65536%N; change (2 ^ 32)%N with 4294967296%N; lia).
    set (id := (_ * _ + _)%N) in *. destruct (id =? 0)%N eqn:Z; [discriminate|].
    destruct (_ <=? live s); [discriminate|]. destruct (find s id) eqn:FI; [discriminate|]. destruct (free_from 0 (slots s)) as [i|] eqn:FF; [|discriminate].
    injection CR as <-. destruct (free_from_spec _ _ _ FF) as (_ & N1). rewrite Nat.sub_0_r in N1. apply N.eqb_neq in Z.
    right. right. left. split; [exact C2|]. split; [reflexivity|]. split; [exact LA|]. split; [reflexivity|].
    exists i, (Sess id (h_enc h) Handshaking (Some (fresh_keys (h_keys h))) None). cbn [sid ph hs slots]. split; [exact N1|].
    split; [intros j y; apply find_none_holds; assumption|]. do 4 (split; [assumption || reflexivity|]). reflexivity. }
  destruct (c =? 229)%N eqn:C3.
  { apply N.eqb_eq in C3. destruct (in_session s Handshaking) as [[i x]|] eqn:IS; [|injection E as <- <- <-; left; repeat split; discriminate].
    destruct (h_ok h); [|injection E as <- <- <-; left; repeat split; discriminate].
    injection E as <- <- <-. destruct (in_session_spec _ _ _ _ IS) as (L & F & P). right. right. right. split; [exact C3|]. exists i, x. auto 10. }
  destruct (c =? 236)%N.
  { destruct (in_session s Established); [destruct (h_ok h)|]; injection E as <- <- <-; left; repeat split; discriminate. }
  destruct (c =? 254)%N.
  { destruct e; [destruct (in_session s Established)|]; try destruct (h_ok h); injection E as <- <- <-; left; repeat split; discriminate. }
  destruct (h_ok h); cbn [andb] in E; [|injection E as <- <- <-; left; repeat split; discriminate].
  destruct (h_code h =? 101)%N eqn:X; [injection E as <- <- <-; left; repeat split; discriminate|]. cbn [orb] in E. apply N.eqb_neq in X.
  destruct (h_code h =? 108)%N; injection E as <- <- <-; left; repeat split; (discriminate || exact X).
Qed.

Lemma encode_slots : forall s m w s3 o ok ev, encode seal tag s m w = (s3, o, ok, ev) ->
  slots s3 = slots s \/
  exists i x y, last s = Some (sid x) /\ find s (sid x) = Some (i, x) /\ slots s3 = upd (slots s) i y /\
    (y = None \/ exists z, y = Some z /\ sid z = sid x /\ (ph z = ph x \/ nth (off m + 1) (buf m) 0%N = 101%N)).
Proof.
  intros s m w s3 o ok ev E. unfold encode in E. cbv zeta in E.
  destruct (last s) as [id|]; [|injection E as <- <- <- <-; left; reflexivity].
  destruct (find s id) as [[i x]|] eqn:F; [|injection E as <- <- <- <-; left; reflexivity].
  destruct (max_count <=? count (rsp (current x)))%N; [injection E as <- <- <- <-; left; reflexivity|].
  destruct (find_spec _ _ _ _ F) as (N1 & <- & NZ).
  set (x1 := set_current x (Keys (req (current x)) (next (rsp (current x))))) in *.
  assert (SD : sid x1 = sid x) by apply sid_current. assert (PD : ph x1 = ph x) by apply ph_current.
  right. exists i, x. destruct (enc_mac x).
  2:{ injection E as <- <- <- <-. exists (Some x1). split; [reflexivity|]. split; [exact F|]. split; [reflexivity|]. right. exists x1. auto. }
  destruct (encrypt seal tag m (sid x) (rsp (current x)) w) as [[m' ok'] ev']. destruct ok'.
  2:{ injection E as <- <- <- <-. exists (Some x1). split; [reflexivity|]. split; [exact F|]. split; [reflexivity|]. right. exists x1. auto. }
  injection E as <- <- <- <-. destruct (nth (off m + 1) (buf m) 0 =? 101)%N eqn:C1.
  - apply N.eqb_eq in C1. destruct (ph x1) eqn:PH.
    + eexists. split; [reflexivity|]. split; [exact F|]. split.
      * cbn [set_slot slots]. assert (UU : forall (l : list (option sess)) a p q, upd (upd l a p) a q = upd l a q).
        { clear. induction l as [|z l IH]; intros [|a] p q; cbn [upd]; try reflexivity. f_equal. apply IH. }
        rewrite UU. reflexivity.
      * right. eexists. split; [reflexivity|]. cbn [sid]. auto.
    + exists (Some x1). split; [reflexivity|]. split; [exact F|]. split; [reflexivity|]. right. exists x1. auto.
  - destruct (nth (off m + 1) (buf m) 0 =? 108)%N.
    + exists None. split; [reflexivity|]. split; [exact F|]. split; [|left; reflexivity]. unfold release.
      rewrite (find_set s (sid x) i x x1 F SD). cbn [set_slot slots].
      assert (UU : forall (l : list (option sess)) a p q, upd (upd l a p) a q = upd l a q).
      { clear. induction l as [|z l IH]; intros [|a] p q; cbn [upd]; try reflexivity. f_equal. apply IH. }
      rewrite UU. reflexivity.
    + exists (Some x1). split; [reflexivity|]. split; [exact F|]. split; [reflexivity|]. right. exists x1. auto.
Qed.

Lemma decode_uinv : forall s m w s1 o ev, decode opn s m w = (s1, o, ev) -> UInv s -> UInv s1.
Proof.
  intros s m w s1 o ev E U. destruct (decode_slots _ _ _ _ _ _ E) as [(A & _)|(i & x & H & A & _)]; [apply (uinv_same s); assumption|].
  eapply uinv_upd; [exact U|exact H|exact A|]. intros y Y. injection Y as <-. apply sid_current.
Qed.
Lemma dispatch_uinv : forall s e c h s2 l ev, dispatch s e c h = (s2, l, ev) -> UInv s -> UInv s2.
Proof.
  intros s e c h s2 l ev E U.
  destruct (dispatch_slots _ _ _ _ _ _ _ E) as [(A & _)|[(_ & -> & _)|[(_ & _ & _ & _ & i & x & NN & FR & NZ & BD & _ & _ & A)|(_ & i & x & _ & _ & F & _ & _ & A)]]].
  - apply (uinv_same s); assumption.
  - split; [intros i j x y H|intros i x H]; destruct (nth_error_nones _ _ _ H).
  - destruct U as [U B]. split.
    + intros a b y z HY HZ S. destruct (holds_upd _ _ _ _ _ _ A HY) as [(-> & EO & _)|(NE & HJ)], (holds_upd _ _ _ _ _ _ A HZ) as [(-> & EO' & _)|(NE' & HJ')].
      * reflexivity.
      * injection EO as <-. exfalso. exact (FR b z HJ' (eq_sym S)).
      * injection EO' as <-. exfalso. exact (FR a y HJ S).
      * exact (U a b y z HJ HJ' S).
    + intros a y HY. destruct (holds_upd _ _ _ _ _ _ A HY) as [(-> & EO & _)|(NE & HJ)]; [injection EO as <-; auto|exact (B a y HJ)].
  - destruct (find_spec _ _ _ _ F) as (N1 & _). eapply uinv_upd; [exact U|exact N1|exact A|]. intros y Y. injection Y as <-. reflexivity.
Qed.
Lemma encode_uinv : forall s m w s3 o ok ev, encode seal tag s m w = (s3, o, ok, ev) -> UInv s -> UInv s3.
Proof.
  intros s m w s3 o ok ev E U. destruct (encode_slots _ _ _ _ _ _ _ E) as [A|(i & x & y & _ & F & A & O)]; [apply (uinv_same s); assumption|].
  destruct (find_spec _ _ _ _ F) as (N1 & _). eapply uinv_upd; [exact U|exact N1|exact A|]. intros z Z. destruct O as [->|(z' & -> & S & _)]; congruence.
Qed.
Lemma process_uinv : forall s r s' ev o, process seal tag opn s r = (s', ev, o) -> UInv s -> UInv s'.
Proof.
  intros s r s' ev o E U. unfold process in E. cbv zeta in E.
  destruct (if encrypted r then _ else _) as [[s1 d] ev1] eqn:D.
  assert (I1 : UInv s1) by (destruct (encrypted r); [eapply decode_uinv; [exact D|exact U]|injection D as <- <- <-; exact U]).
  destruct d as [m1|]; [|injection E as <- <- <-; exact I1].
  destruct (plen m1 <? 2); [injection E as <- <- <-; exact I1|].
  destruct (dispatch s1 (encrypted r) (nth 1 (payload m1) 0%N) (handle r)) as [[s2 l] ev2] eqn:DI.
  pose proof (dispatch_uinv _ _ _ _ _ _ _ DI I1) as I2.
  destruct (put m1 l) as [m2|]; [|injection E as <- <- <-; exact I2]. destruct (encrypted r); [|injection E as <- <- <-; exact I2].
  destruct (encode seal tag s2 m2 (wks r)) as [[[s3 m3] ok] ev3] eqn:EN. injection E as <- <- <-. eapply encode_uinv; eassumption.
Qed.
Lemma run_uinv : forall l s s' ev os, run seal tag opn s l = (s', ev, os) -> UInv s -> UInv s'.
Proof.
  induction l as [|r l IH]; intros s s' ev os E U; cbn [run] in E; [injection E as <- <- <-; exact U|].
  destruct (process seal tag opn s r) as [[s1 e1] o1] eqn:P. destruct (run seal tag opn s1 l) as [[s2 e2] o2] eqn:R. injection E as <- <- <-.
  eapply IH; [exact R|]. eapply process_uinv; eassumption.
Qed.
Lemma start_uinv : forall n, UInv (start n).
Proof.
  clear. intro n. assert (E : forall i x, holds (start n) i x -> False) by (intros i x J; apply nth_error_In, repeat_spec in J; discriminate).
  split; [intros i j x y H|intros i x H]; destruct (E _ _ H).
Qed.

(** ** Where sessions come from, and how they change *)
Lemma opened_by : forall s r s' ev o i x, process seal tag opn s r = (s', ev, o) -> holds s' i x -> (forall y, holds s i y -> sid y <> sid x) ->
  encrypted r = false /\ nth 1 (payload (message r)) 0%N = 228%N /\ ph x = Handshaking /\ exists k, hs x = Some k /\ ev = [Derived k].
Proof.
  intros s r s' ev o i x E H NO. unfold process in E. cbv zeta in E.
  destruct (if encrypted r then _ else _) as [[s1 d] ev1] eqn:D.
  assert (K1 : forall z, holds s1 i z -> exists y, holds s i y /\ sid y = sid z).
  { destruct (encrypted r).
    - destruct (decode_slots _ _ _ _ _ _ D) as [(A & _)|(j & y & HJ & A & _)].
      + intros z HZ. exists z. unfold holds in *. rewrite A in HZ. auto.
      + intros z HZ. destruct (holds_upd _ _ _ _ _ _ A HZ) as [(-> & EO & _)|(NE & HN)]; [|exists z; auto]. injection EO as <-. exists y. split; [exact HJ|symmetry; apply sid_current].
    - injection D as <- <- <-. intros z HZ. exists z. auto. }
  assert (N1 : forall z, holds s1 i z -> sid z <> sid x) by (intros z HZ; destruct (K1 z HZ) as (y & Y & <-); exact (NO y Y)).
  destruct d as [m1|]; [|injection E as <- <- <-; exfalso; exact (N1 x H eq_refl)].
  destruct (plen m1 <? 2); [injection E as <- <- <-; exfalso; exact (N1 x H eq_refl)|].
  destruct (dispatch s1 (encrypted r) (nth 1 (payload m1) 0%N) (handle r)) as [[s2 l] ev2] eqn:DI.
  destruct (dispatch_slots _ _ _ _ _ _ _ DI) as [(A & _)|[(_ & A & _)|[(C & LA & LB & EV & j & y & NN & FR & NZ & BD & PH & HS & A)|(_ & j & y & _ & _ & F & _ & _ & A)]]].
  1,2,4: exfalso.
  1,2,3: assert (N2 : forall z, holds s2 i z -> sid z <> sid x);
    [intros z HZ|
     destruct (put m1 l) as [m2|]; [|injection E as <- <- <-; exact (N2 x H eq_refl)]; destruct (encrypted r); [|injection E as <- <- <-; exact (N2 x H eq_refl)];
     destruct (encode seal tag s2 m2 (wks r)) as [[[s3 m3] ok] ev3] eqn:EN; injection E as <- <- <-;
     destruct (encode_slots _ _ _ _ _ _ _ EN) as [B|(b & u & v & _ & F' & B & O)];
     [unfold holds in *; rewrite B in H; exact (N2 x H eq_refl)|];
     destruct (holds_upd _ _ _ _ _ _ B H) as [(-> & EO & _)|(NE & HN)]; [|exact (N2 x HN eq_refl)];
     destruct (find_spec _ _ _ _ F') as (G1 & _); destruct O as [->|(w & -> & SS & _)]; [discriminate|]; injection EO as ->;
     apply (N2 u G1); congruence].
  - unfold holds in *. rewrite A in HZ. exact (N1 z HZ).
  - rewrite A in HZ. destruct (nth_error_nones _ _ _ HZ).
  - destruct (holds_upd _ _ _ _ _ _ A HZ) as [(-> & EO & _)|(NE & HN)]; [|exact (N1 z HN)]. injection EO as <-. cbn [sid].
    destruct (find_spec _ _ _ _ F) as (G1 & _). exact (N1 y G1).
  - destruct (encrypted r) eqn:EN.
    + exfalso. destruct (decode_slots _ _ _ _ _ _ D) as [(_ & X & _)|(b & u & _ & _ & [X|(X & _)])]; congruence.
    + split; [reflexivity|]. injection D as <- <- <-. split; [exact C|]. cbn [app] in E.
      assert (K : holds s2 i x /\ ev = ev2) by (destruct (put (message r) l); injection E as <- <- <-; auto). destruct K as [K ->].
      destruct (holds_upd _ _ _ _ _ _ A K) as [(-> & EO & _)|(NE & HN)]; [|exfalso; exact (N1 x HN eq_refl)]. injection EO as <-. split; [exact PH|]. exists (fresh_keys (h_keys (handle r))). auto.
Qed.

Lemma established_by : forall s r s' ev o i x y, process seal tag opn s r = (s', ev, o) -> UInv s -> holds s i x -> holds s' i y -> ph x = Handshaking -> ph y = Established ->
  sid y = sid x /\ encrypted r = true /\ exists iv aad ct tg pt, In (Opened (dkey (req (the (hs x)))) iv aad ct tg pt) ev.
Proof.
  intros s r s' ev o i x y E U HX HY PX PY. unfold process in E. cbv zeta in E.
  destruct (if encrypted r then _ else _) as [[s1 d] ev1] eqn:D.
  assert (U1 : UInv s1) by (destruct (encrypted r); [eapply decode_uinv; [exact D|exact U]|injection D as <- <- <-; exact U]).
  (* after decoding: the same session in the same phase; the last session is this one only if it has opened the message *)
  assert (K1 : exists x1, holds s1 i x1 /\ sid x1 = sid x /\ ph x1 = ph x /\ (d = None \/ last s1 <> Some (sid x) \/
      (encrypted r = true /\ exists iv aad ct tg pt, ev1 = [Opened (dkey (req (the (hs x)))) iv aad ct tg pt]))).
  { destruct (encrypted r).
    - destruct (decode_slots _ _ _ _ _ _ D) as [(A & B & _)|(j & z & HJ & A & B)].
      + exists x. unfold holds in *. rewrite A. auto.
      + change (holds s j z) in HJ. change (slots (set_last s None)) with (slots s) in A. destruct (Nat.eq_dec j i) as [->|NE].
        * assert (z = x) by (unfold holds in *; congruence). subst z. eexists. split; [unfold holds; rewrite A; apply nth_error_upd_eq; eapply nth_error_some_lt; exact HX|].
          split; [apply sid_current|]. split; [apply ph_current|]. destruct B as [B|(L & iv & aad & ct & tg & pt & B)]; [auto|right; right]. split; [reflexivity|].
          exists iv, aad, ct, tg, pt. unfold current in B. rewrite PX in B. exact B.
        * exists x. split; [unfold holds; rewrite A, nth_error_upd_neq by auto; exact HX|]. split; [reflexivity|]. split; [reflexivity|]. destruct B as [B|(L & _)]; [auto|right; left].
          rewrite L. intro Q. injection Q as Q. apply NE. exact (proj1 U j i z x HJ HX Q).
    - injection D as <- <- <-. exists x. split; [exact HX|]. split; [reflexivity|]. split; [reflexivity|]. right. left. cbn. discriminate. }
  destruct K1 as (x1 & H1 & S1 & P1 & C1). rewrite PX in P1.
  destruct d as [m1|]; [|injection E as <- <- <-; unfold holds in *; congruence].
  destruct (plen m1 <? 2); [injection E as <- <- <-; unfold holds in *; congruence|].
  destruct (dispatch s1 (encrypted r) (nth 1 (payload m1) 0%N) (handle r)) as [[s2 l] ev2] eqn:DI.
  pose proof (dispatch_uinv _ _ _ _ _ _ _ DI U1) as U2.
  assert (K2 : (forall z, holds s2 i z -> ph z = Handshaking /\ sid z = sid x) /\ (last s2 = last s1 \/ last s2 = None)).
  { destruct (dispatch_slots _ _ _ _ _ _ _ DI) as [(A & B & _)|[(_ & A & _)|[(C & LA & LB & EV & j & z & NN & FR & NZ & BD & PH & HS & A)|(_ & j & z & LA & LB & F & PH & _ & A)]]].
    - split; [|auto]. intros z HZ. unfold holds in *. rewrite A in HZ. assert (z = x1) by congruence. subst z. auto.
    - rewrite A. split; [|right; reflexivity]. intros z HZ. destruct (nth_error_nones _ _ _ HZ).
    - split; [|auto]. intros z' HZ. destruct (holds_upd _ _ _ _ _ _ A HZ) as [(-> & EO & _)|(NE & HN)]; [unfold holds in H1; congruence|]. unfold holds in H1. assert (z' = x1) by congruence. subst z'. auto.
    - split; [|auto]. destruct (find_spec _ _ _ _ F) as (G1 & _). intros z' HZ. destruct (holds_upd _ _ _ _ _ _ A HZ) as [(-> & EO & _)|(NE & HN)].
      + injection EO as <-. cbn [ph sid]. unfold holds in H1. assert (z = x1) by congruence. subst z. auto.
      + unfold holds in H1. assert (z' = x1) by congruence. subst z'. auto. }
  destruct K2 as [K2 L2].
  assert (BAD : forall s4, s4 = s2 -> holds s4 i y -> False) by (intros s4 -> HB; destruct (K2 y HB); congruence).
  destruct (put m1 l) as [m2|]; [|injection E as <- <- <-; destruct (BAD _ eq_refl HY)]. destruct (encrypted r) eqn:EN; [|injection E as <- <- <-; destruct (BAD _ eq_refl HY)].
  destruct (encode seal tag s2 m2 (wks r)) as [[[s3 m3] ok] ev3] eqn:ENC. injection E as <- <- <-.
  destruct (encode_slots _ _ _ _ _ _ _ ENC) as [B|(b & u & v & LU & F' & B & O)].
  { exfalso. unfold holds in *. rewrite B in HY. destruct (K2 y HY). congruence. }
  destruct (holds_upd _ _ _ _ _ _ B HY) as [(-> & EO & _)|(NE & HN)]; [|exfalso; destruct (K2 y HN); congruence].
  destruct (find_spec _ _ _ _ F') as (G1 & _). destruct (K2 u G1) as [PU SU]. destruct O as [->|(z & -> & SZ & _)]; [discriminate|]. injection EO as ->.
  split; [congruence|]. split; [reflexivity|]. destruct C1 as [C1|[C1|(_ & iv & aad & ct & tg & pt & ->)]]; [discriminate| |].
  - exfalso. apply C1. rewrite <- SU, <- LU. destruct L2 as [L2|L2]; [symmetry; exact L2|rewrite L2 in LU; discriminate].
  - exists iv, aad, ct, tg, pt. left. reflexivity.
Qed.

Lemma ended_by : forall s r s' ev o i x, process seal tag opn s r = (s', ev, o) -> UInv s -> holds s i x -> nth_error (slots s') i = Some None ->
  (exists iv aad ct tg pt, In (Opened (dkey (req (current x))) iv aad ct tg pt) ev) \/
  ((forall j y, ~ holds s' j y) /\ (encrypted r = false -> nth 1 (payload (message r)) 0%N = 132%N)).
Proof.
  intros s r s' ev o i x E U HX HY. unfold process in E. cbv zeta in E.
  destruct (if encrypted r then _ else _) as [[s1 d] ev1] eqn:D.
  assert (U1 : UInv s1) by (destruct (encrypted r); [eapply decode_uinv; [exact D|exact U]|injection D as <- <- <-; exact U]).
  assert (K1 : exists x1, holds s1 i x1 /\ sid x1 = sid x /\ (d = None \/ last s1 <> Some (sid x) \/
      (exists iv aad ct tg pt, ev1 = [Opened (dkey (req (current x))) iv aad ct tg pt])) /\ (encrypted r = false -> d = Some (message r))).
  { destruct (encrypted r).
    - destruct (decode_slots _ _ _ _ _ _ D) as [(A & B & _)|(j & z & HJ & A & B)].
      + exists x. unfold holds in *. rewrite A. split; [exact HX|]. split; [reflexivity|]. split; [auto|discriminate].
      + change (holds s j z) in HJ. change (slots (set_last s None)) with (slots s) in A. destruct (Nat.eq_dec j i) as [->|NE].
        * assert (z = x) by (unfold holds in *; congruence). subst z. eexists. split; [unfold holds; rewrite A; apply nth_error_upd_eq; eapply nth_error_some_lt; exact HX|].
          split; [apply sid_current|]. split; [|discriminate]. destruct B as [B|(L & B)]; auto.
        * exists x. split; [unfold holds; rewrite A, nth_error_upd_neq by auto; exact HX|]. split; [reflexivity|]. split; [|discriminate]. destruct B as [B|(L & _)]; [auto|right; left].
          rewrite L. intro Q. injection Q as Q. apply NE. exact (proj1 U j i z x HJ HX Q).
    - injection D as <- <- <-. exists x. split; [exact HX|]. split; [reflexivity|]. split; [right; left; cbn; discriminate|reflexivity]. }
  destruct K1 as (x1 & H1 & S1 & C1 & M1).
  destruct d as [m1|]; [|injection E as <- <- <-; unfold holds in *; congruence].
  destruct (plen m1 <? 2); [injection E as <- <- <-; unfold holds in *; congruence|].
  destruct (dispatch s1 (encrypted r) (nth 1 (payload m1) 0%N) (handle r)) as [[s2 l] ev2] eqn:DI.
  destruct (dispatch_slots _ _ _ _ _ _ _ DI) as [(A & B & _)|[(C & A & _)|[(C & LA & LB & EV & j & z & NN & FR & NZ & BD & PH & HS & A)|(_ & j & z & LA & LB & F & PH & _ & A)]]].
  2:{ right. assert (NO : forall j y, ~ holds s2 j y) by (rewrite A; intros j y H; exact (nth_error_nones _ _ _ H)). split.
      - destruct (put m1 l) as [m2|]; [|injection E as <- <- <-; exact NO]. destruct (encrypted r); [|injection E as <- <- <-; exact NO].
        destruct (encode seal tag s2 m2 (wks r)) as [[[s3 m3] ok] ev3] eqn:ENC. injection E as <- <- <-.
        destruct (encode_slots _ _ _ _ _ _ _ ENC) as [Q|(b & u & v & LU & _)]; [intros j y H; unfold holds in *; rewrite Q in H; exact (NO j y H)|].
        rewrite A in LU. discriminate.
      - intro X. specialize (M1 X). injection M1 as ->. exact C. }
  1,2,3: left;
    (assert (K2 : exists x2, holds s2 i x2 /\ sid x2 = sid x /\ last s2 = last s1);
     [|destruct K2 as (x2 & H2 & S2 & L2);
       destruct (put m1 l) as [m2|]; [|injection E as <- <- <-; unfold holds in *; congruence]; destruct (encrypted r) eqn:EN; [|injection E as <- <- <-; unfold holds in *; congruence];
       destruct (encode seal tag s2 m2 (wks r)) as [[[s3 m3] ok] ev3] eqn:ENC; injection E as <- <- <-;
       destruct (encode_slots _ _ _ _ _ _ _ ENC) as [Q|(b & u & v & LU & F' & Q & O)]; [unfold holds in *; congruence|];
       destruct (find_spec _ _ _ _ F') as (G1 & _); destruct (Nat.eq_dec b i) as [->|NE];
       [|exfalso; unfold holds in *; rewrite Q, nth_error_upd_neq in HY by auto; congruence];
       destruct C1 as [C1|[C1|(iv & aad & ct & tg & pt & ->)]]; [discriminate| |exists iv, aad, ct, tg, pt; left; reflexivity];
       exfalso; apply C1; unfold holds in H2; congruence]).
  - exists x1. unfold holds in *. rewrite A. auto.
  - exists x1. split; [|split; [exact S1|congruence]]. unfold holds in *. rewrite A, nth_error_upd_neq; [exact H1|]. intro Q. subst j. congruence.
  - destruct (find_spec _ _ _ _ F) as (G1 & _). destruct (Nat.eq_dec j i) as [->|NE].
    + eexists. split; [unfold holds; rewrite A; apply nth_error_upd_eq; eapply nth_error_some_lt; exact H1|]. cbn [sid]. split; [|exact LB]. unfold holds in H1. congruence.
    + exists x1. split; [|split; [exact S1|exact LB]]. unfold holds in *. rewrite A, nth_error_upd_neq; auto.
Qed.
End Aead.
