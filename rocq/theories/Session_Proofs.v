(** Every call changes the table in one of a few ways; the invariant of a history. *)
From Coq Require Import List NArith Lia Bool Arith.
From Coq Require Import ZifyBool ZifyNat ZifyN.
From Verif Require Import Base ByteMath_Model ByteMath_Proofs BufferUtil_Model Session_Model Session_Spec.
Import ListNotations.

Lemma find_from_some : forall p t n i, find_from p n t = Some i ->
  n <= i < n + length t /\ p (nth (i - n) t blank_entry) = true.
Proof.
  induction t as [|e r IH]; intros n i H; cbn [find_from] in H; [discriminate|]. cbn [length].
  destruct (p e) eqn:P.
  - injection H as <-. rewrite Nat.sub_diag. split; [lia|exact P].
  - apply IH in H. destruct H as (H & Q). split; [lia|]. replace (i - n) with (S (i - S n)) by lia. exact Q.
Qed.

Lemma find_from_none : forall p t n, find_from p n t = None -> forall i, i < length t -> p (nth i t blank_entry) = false.
Proof.
  induction t as [|e r IH]; intros n H i L; cbn [find_from length] in *; [lia|].
  destruct (p e) eqn:P; [discriminate|]. destruct i as [|i]; [exact P|]. cbn [nth]. apply (IH (S n)); [exact H|lia].
Qed.

Lemma used_spec : forall s, used s = true <-> s <> Unused.
Proof. destruct s; cbn; split; congruence. Qed.

Lemma get_session_some : forall t eid i, get_session t eid = Some i -> session_at t i eid.
Proof.
  intros t eid i H. unfold get_session in H. apply find_from_some in H. destruct H as (L & P).
  rewrite Nat.sub_0_r in P. apply andb_prop in P. destruct P as (P1 & P2). apply N.eqb_eq in P1. apply used_spec in P2.
  split; [lia|]. split; [exact P1|exact P2].
Qed.

Lemma get_session_none : forall t eid, get_session t eid = None -> forall i, ~ session_at t i eid.
Proof.
  intros t eid H i (L & E & S). unfold get_session in H. pose proof (find_from_none _ _ _ H i L) as P.
  cbn beta in P. apply used_spec in S. unfold at_ in *. rewrite S, E, N.eqb_refl in P. discriminate.
Qed.

Lemma get_free_some : forall t i, get_free t = Some i -> i < length t /\ e_state (at_ t i) = Unused.
Proof.
  intros t i H. unfold get_free in H. apply find_from_some in H. rewrite Nat.sub_0_r in H. destruct H as (L & P).
  split; [lia|]. unfold at_. destruct (e_state (nth i t blank_entry)); try discriminate. reflexivity.
Qed.

Lemma get_free_none : forall t, get_free t = None -> forall i, i < length t -> e_state (at_ t i) <> Unused.
Proof.
  intros t H i L. unfold get_free in H. pose proof (find_from_none _ _ _ H i L) as P. cbn beta in P.
  unfold at_. destruct (e_state (nth i t blank_entry)); cbn in P; congruence.
Qed.

Lemma at_upd_eq : forall t i e, i < length t -> at_ (upd t i e) i = e.
Proof. intros. unfold at_. now apply nth_upd_eq. Qed.
Lemma at_upd_neq : forall t i j e, i <> j -> at_ (upd t i e) j = at_ t j.
Proof. intros. unfold at_. now apply nth_upd_neq. Qed.
Lemma upd_at : forall t i, i < length t -> upd t i (at_ t i) = t.
Proof. intros. unfold at_. now apply upd_same. Qed.

Lemma entry_eta : forall e, Entry (e_key e) (e_hmac e) (e_dnonce e) (e_cnonce e) (e_eid e) (e_state e) (e_iv e) = e.
Proof. now destruct e. Qed.

Lemma usable_used : forall s, usable s = true -> s <> Unused.
Proof. destruct s; cbn; congruence. Qed.

(** What a call may do. *)
Inductive change (t : table) : table -> event -> Prop :=
| ch_none : forall st, change t t (Failed st)
| ch_quiet : change t t Quiet
| ch_accept : forall i eid, get_session t eid = Some i -> usable (e_state (at_ t i)) = true ->
    change t t (Accepted eid (e_key (at_ t i)))
| ch_add : forall i eid e', i < length t ->
    get_session t eid = Some i \/ (get_session t eid = None /\ e_state (at_ t i) = Unused) ->
    e_eid e' = eid -> e_state e' = Setup -> e_iv e' = 0x80%N :: zeros 11 -> change t (upd t i e') (Added eid)
| ch_setup : forall i eid e' st, get_session t eid = Some i -> e_state (at_ t i) = Setup ->
    e_eid e' = eid -> e_state e' = Setup -> e_iv e' = e_iv (at_ t i) -> change t (upd t i e') (Failed st)
| ch_agree : forall i eid e', get_session t eid = Some i -> e_state (at_ t i) = Setup ->
    e_eid e' = eid -> e_state e' = Established -> e_iv e' = e_iv (at_ t i) -> change t (upd t i e') (Agreed eid (e_key e'))
| ch_use : forall i eid iv, get_session t eid = Some i -> usable (e_state (at_ t i)) = true ->
    increment_byte_array (e_iv (at_ t i)) false = (iv, CM_OK) ->
    change t (upd t i (set_e_iv (at_ t i) iv)) (Encrypted eid (e_key (at_ t i)) iv)
| ch_full : forall i eid iv st, get_session t eid = Some i -> usable (e_state (at_ t i)) = true ->
    increment_byte_array (e_iv (at_ t i)) false = (iv, st) -> st <> CM_OK ->
    change t (upd t i (set_e_iv (at_ t i) iv)) (Failed SmIvExhausted)
| ch_remove : forall i eid, get_session t eid = Some i -> change t (upd t i blank_entry) (Removed eid)
| ch_rekey : forall i eid k s, get_session t eid = Some i -> usable (e_state (at_ t i)) = true -> usable s = true ->
    change t (upd t i (set_e_state (set_e_key (at_ t i) k) s)) (Rekeyed eid k)
| ch_pair : forall i eid s ev, get_session t eid = Some i -> usable (e_state (at_ t i)) = true -> usable s = true ->
    (ev = Quiet \/ exists st, ev = Failed st) ->
    change t (upd t i (set_e_state (at_ t i) s)) ev.

Section Session.
Variable enc : list N -> list N -> list N -> list N * list N.
Variable dec : list N -> list N -> list N -> list N -> option (list N).
Variable hmac : list N -> list N -> list N.
Variable kdf : list N -> list N -> list N -> list N.
Variable pairing : list N.
Variable store : bool.
Notation step := (step enc dec hmac kdf pairing store).
Notation run := (run enc dec hmac kdf pairing store).

Lemma outcome_failed : forall st e, st <> SmOk -> outcome st e = Failed st.
Proof. destruct st; cbn; congruence. Qed.

(** Looking up the same peer after its own entry was replaced. *)
Lemma find_from_upd : forall p t n k e', find_from p n t = Some (n + k) -> p e' = true ->
  find_from p n (upd t k e') = Some (n + k).
Proof.
  induction t as [|x r IH]; intros n k e' H P; [discriminate|]. cbn [find_from] in H.
  destruct k as [|k].
  - cbn [upd find_from]. rewrite P. f_equal. lia.
  - cbn [upd find_from]. destruct (p x); [injection H; lia|].
    replace (n + S k) with (S n + k) in * by lia. now apply IH.
Qed.

Lemma get_session_upd : forall t eid i e', get_session t eid = Some i -> e_eid e' = eid -> e_state e' <> Unused ->
  get_session (upd t i e') eid = Some i.
Proof.
  intros t eid i e' H E S. unfold get_session in *. apply (find_from_upd _ t 0 i); [exact H|].
  rewrite E, N.eqb_refl. cbn. now apply used_spec.
Qed.

Lemma key_of_upd : forall t eid i e', get_session t eid = Some i -> e_eid e' = eid -> e_state e' <> Unused ->
  key_of (upd t i e') eid = e_key e'.
Proof.
  intros t eid i e' H E S. unfold key_of. rewrite (get_session_upd _ _ _ _ H E S).
  apply get_session_some in H. destruct H as (L & _). now rewrite at_upd_eq.
Qed.

Lemma key_of_eq : forall t eid i, get_session t eid = Some i -> key_of t eid = e_key (at_ t i).
Proof. intros. unfold key_of. now rewrite H. Qed.

Lemma same_bytes_spec : forall a b, if same_bytes a b then a = b else a <> b.
Proof. intros a b. unfold same_bytes. destruct (list_eq_dec N.eq_dec a b); auto. Qed.

Lemma establish_change : forall t m v t' m' st n, establish hmac kdf t m v = (t', m', st, n) ->
  (st <> SmOk /\ t' = t) \/
  (exists i e', get_session t (m_eid m) = Some i /\ e_state (at_ t i) = Setup /\ e_eid e' = m_eid m /\
     e_iv e' = e_iv (at_ t i) /\ t' = upd t i e' /\
     ((st <> SmOk /\ e_state e' = Setup) \/ (st = SmOk /\ e_state e' = Established))).
Proof.
  intros t m v t' m' st n H. unfold establish in H. cbv zeta in H.
  repeat match type of H with
  | context [match get_session t (m_eid m) with _ => _ end] => destruct (get_session t (m_eid m)) as [i|] eqn:G
  | context [match e_state ?x with _ => _ end] => destruct (e_state x) eqn:ST
  | (if ?b then _ else _) = _ => destruct b
  | context [match x_der v with _ => _ end] => destruct (x_der v)
  | context [match x_sig v with _ => _ end] => destruct (x_sig v)
  | context [match x_secret v with _ => _ end] => destruct (x_secret v)
  end;
  assert (t' = fst (fst (fst (t', m', st, n)))) as T by reflexivity; assert (st = snd (fst (t', m', st, n))) as S by reflexivity;
  rewrite <- H in T, S; cbn [fst snd] in T, S; subst t' st; clear H; try (left; split; [discriminate|reflexivity]);
  right; pose proof (get_session_some _ _ _ G) as (L & E & _); refine (ex_intro _ i (ex_intro _ _ (conj eq_refl (conj ST (conj _ (conj _ (conj eq_refl _)))))));
  first [exact E|reflexivity|left; split; [discriminate|exact ST]|right; split; reflexivity].
Qed.

Lemma pair_change : forall t eid mac v t' st sv, setup_paired hmac kdf pairing store t eid mac v = (t', st, sv) ->
  (st <> SmOk /\ t' = t) \/
  (exists i k s, get_session t eid = Some i /\ usable (e_state (at_ t i)) = true /\ usable s = true /\
     t' = upd t i (set_e_state (set_e_key (at_ t i) k) s)).
Proof.
  intros t eid mac v t' st sv H. unfold setup_paired in H. cbv zeta in H.
  destruct store; cbn [negb] in H; [|injection H as <- <- <-; left; split; [discriminate|reflexivity]].
  destruct (get_session t eid) as [i|] eqn:G; [|injection H as <- <- <-; left; split; [discriminate|reflexivity]].
  destruct (usable (e_state (at_ t i))) eqn:U; cbn [negb] in H; [|injection H as <- <- <-; left; split; [discriminate|reflexivity]].
  destruct (existsb (N.eqb eid) pairing); cbn [negb] in H; [|injection H as <- <- <-; left; split; [discriminate|reflexivity]].
  assert (F: forall pk (generated : bool),
    (match check_hmac hmac (e_hmac (at_ t i)) pk mac (negb (p_hmac v)) with
     | SmOk =>
        if negb (p_kdf2 v) then (upd t i (set_e_key (at_ t i) (run_kdf kdf pk (e_key (at_ t i)) [] (p_kdf2 v))), SmCrypto, None)
        else if generated && negb (p_save v)
             then (upd t i (set_e_key (at_ t i) (run_kdf kdf pk (e_key (at_ t i)) [] (p_kdf2 v))), SmKeystore, None)
             else (upd t i (set_e_state (set_e_key (at_ t i) (kdf pk (e_key (at_ t i)) [])) Paired), SmOk, if generated then Some pk else None)
     | st => (t, st, None)
     end) = (t', st, sv) ->
    (st <> SmOk /\ t' = t) \/
    (exists i0 k s, Some i = Some i0 /\ usable (e_state (at_ t i0)) = true /\ usable s = true /\
     t' = upd t i0 (set_e_state (set_e_key (at_ t i0) k) s))).
  { intros pk generated Q. destruct (check_hmac hmac (e_hmac (at_ t i)) pk mac (negb (p_hmac v)));
      try (injection Q as <- <- <-; left; split; [discriminate|reflexivity]).
    destruct (negb (p_kdf2 v)); [|destruct (generated && negb (p_save v))]; injection Q as <- <- <-; right.
    - exists i, (run_kdf kdf pk (e_key (at_ t i)) [] (p_kdf2 v)), (e_state (at_ t i)). repeat (split; [auto|]). reflexivity.
    - exists i, (run_kdf kdf pk (e_key (at_ t i)) [] (p_kdf2 v)), (e_state (at_ t i)). repeat (split; [auto|]). reflexivity.
    - exists i, (kdf pk (e_key (at_ t i)) []), Paired. repeat (split; [auto|]). reflexivity. }
  destruct (p_load v) as [| |k].
  - injection H as <- <- <-. left; split; [discriminate|reflexivity].
  - destruct (p_kdf1 v); [exact (F _ true H)|]. injection H as <- <- <-. left; split; [discriminate|reflexivity].
  - destruct (32 <? length k); [injection H as <- <- <-; left; split; [discriminate|reflexivity]|]. exact (F _ false H).
Qed.

Lemma step_change : forall t o t' ev, step t o = (t', ev) -> change t t' ev.
Proof.
  intros t o t' ev H. destruct o as [eid dn cn|m v|m o|m f|eid mac f|eid mac v|eid nonce room f]; cbn [Session_Model.step] in H.
  - unfold add_session in H. destruct (get_session t eid) as [i|] eqn:G.
    + injection H as <- <-. pose proof (get_session_some _ _ _ G) as (L & _). apply ch_add; auto.
    + destruct (get_free t) as [i|] eqn:F; injection H as <- <-; [|apply ch_none].
      destruct (get_free_some _ _ F) as (L & U). apply ch_add; auto.
  - destruct (establish hmac kdf t m v) as [[[t1 m1] st] n] eqn:E. destruct (establish_change _ _ _ _ _ _ _ E) as [(N0 & ->)|(i & e' & G & S & E1 & E2 & -> & [(N0 & E3)|(-> & E3)])].
    + injection H as <- <-. rewrite outcome_failed by auto. apply ch_none.
    + injection H as <- <-. rewrite outcome_failed by auto. apply (ch_setup t i (m_eid m)); auto.
    + injection H as <- <-. cbn [outcome]. rewrite (key_of_upd t (m_eid m) i e') by (auto; rewrite E3; discriminate). apply ch_agree; auto.
  - unfold encrypt in H. destruct (m_len m <? HEADER); [injection H as <- <-; apply ch_quiet|].
    destruct (m_max m <? m_len m + TRAILER); [injection H as <- <-; apply ch_none|].
    unfold key_entry in H. destruct (get_session t (m_eid m)) as [i|] eqn:G; [|injection H as <- <-; apply ch_none].
    destruct (usable (e_state (at_ t i))) eqn:U; [|injection H as <- <-; apply ch_none].
    destruct (increment_byte_array (e_iv (at_ t i)) false) as [iv st] eqn:IV.
    destruct o.
    + destruct st; try (injection H as <- <-; eapply ch_full; eauto; discriminate).
      destruct (enc (e_key (at_ t i)) iv _) as [ct tag]. injection H as <- <-. eapply ch_use; eauto.
    + injection H as <- <-. apply ch_none.
    + destruct st; try (injection H as <- <-; eapply ch_full; eauto; discriminate).
      destruct (enc (e_key (at_ t i)) iv _) as [ct tag]. injection H as <- <-. eapply ch_use; eauto.
  - unfold decrypt in H. destruct (m_len m <=? TRAILER + HEADER); [injection H as <- <-; apply ch_none|].
    destruct ((m_max m <? m_len m - TRAILER) || (m_max m <=? HEADER + TRAILER)); [injection H as <- <-; apply ch_none|].
    unfold key_entry in H. destruct (get_session t (m_eid m)) as [i|] eqn:G; [|injection H as <- <-; apply ch_none].
    destruct (usable (e_state (at_ t i))) eqn:U; [|injection H as <- <-; apply ch_none].
    destruct (dec _ _ _ _); [|injection H as <- <-; apply ch_none].
    destruct f; injection H as <- <-; [apply ch_none|]. cbn [outcome]. rewrite (key_of_eq t _ _ G). now apply ch_accept.
  - unfold reset_session in H. destruct (get_session t eid) as [i|] eqn:G; [|injection H as <- <-; apply ch_none].
    set (st := match mac with Some h => if usable (e_state (at_ t i)) then check_hmac hmac (e_hmac (at_ t i)) (e_key (at_ t i)) h f else SmOk | None => SmOk end) in *.
    destruct st; injection H as <- <-; try apply ch_none. now apply ch_remove.
  - destruct (setup_paired hmac kdf pairing store t eid mac v) as [[t1 st] sv] eqn:E.
    destruct (pair_change _ _ _ _ _ _ _ E) as [(N0 & ->)|(i & k & s & G & U & US & ->)].
    + injection H as <- <-. pose proof (same_bytes_spec (key_of t eid) (key_of t eid)) as SB.
      destruct (same_bytes (key_of t eid) (key_of t eid)); [|congruence]. rewrite outcome_failed by auto. apply ch_none.
    + pose proof (get_session_some _ _ _ G) as (L & E1 & _).
      assert (K: key_of (upd t i (set_e_state (set_e_key (at_ t i) k) s)) eid = k).
      { rewrite (key_of_upd t eid i); auto. apply (usable_used s US). }
      rewrite K in H. rewrite (key_of_eq _ _ _ G) in H. pose proof (same_bytes_spec (e_key (at_ t i)) k) as SB.
      destruct (same_bytes (e_key (at_ t i)) k).
      * injection H as <- <-. subst k.
        assert (set_e_state (set_e_key (at_ t i) (e_key (at_ t i))) s = set_e_state (at_ t i) s) as -> by reflexivity.
        apply (ch_pair t i eid); auto. destruct st; cbn; eauto.
      * injection H as <- <-. now apply ch_rekey.
  - destruct (session_sync hmac t eid nonce room f) as [st r]. injection H as <- <-.
    destruct st; cbn [outcome]; try apply ch_none. apply ch_quiet.
Qed.
End Session.
