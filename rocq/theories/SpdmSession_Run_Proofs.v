(** The invariant of SPDM sessions, over requests and histories. *)
From Coq Require Import List NArith Bool Arith Lia ZArith.
From Verif Require Import Base SpdmSession_Model SpdmSession_Spec SpdmSession_Proofs.
Import ListNotations.

Definition at_slot (s : state) : store := fun i b => match nth_error (slots s) i with Some (Some x) => if b : bool then dat x else hs x | _ => None end.
Definition PInv (s : state) : Prop :=
  forall i x, nth_error (slots s) i = Some (Some x) -> sid x <> 0%N /\ match ph x with Handshaking => hs x <> None | Established => dat x <> None end.
Definition SInv (s : state) (t : list event) : Prop := AInv (at_slot s) t /\ PInv s.

(** ** Slots *)
Lemma find_from_spec : forall l n id i x, find_from n l id = Some (i, x) -> n <= i /\ nth_error l (i - n) = Some (Some x) /\ sid x = id.
Proof.
  induction l as [|[y|] l IH]; intros n id i x E; [discriminate| |]; cbn [find_from] in E.
  - destruct (sid y =? id)%N eqn:Y.
    + injection E as <- <-. rewrite Nat.sub_diag. split; [lia|]. split; [reflexivity|apply N.eqb_eq; exact Y].
    + destruct (IH _ _ _ _ E) as (A & B & C). split; [lia|]. split; [|exact C]. replace (i - n) with (S (i - S n)) by lia. exact B.
  - destruct (IH _ _ _ _ E) as (A & B & C). split; [lia|]. split; [|exact C]. replace (i - n) with (S (i - S n)) by lia. exact B.
Qed.
Lemma find_spec : forall s id i x, find s id = Some (i, x) -> nth_error (slots s) i = Some (Some x) /\ sid x = id /\ id <> 0%N.
Proof.
  intros s id i x E. unfold find in E. destruct (id =? 0)%N eqn:Z; [discriminate|]. destruct (find_from_spec _ _ _ _ _ E) as (_ & A & B).
  rewrite Nat.sub_0_r in A. apply N.eqb_neq in Z. auto.
Qed.
Lemma find_from_upd : forall l n id i x y, find_from n l id = Some (i, x) -> sid y = id -> find_from n (upd l (i - n) (Some y)) id = Some (i, y).
Proof.
  induction l as [|[z|] l IH]; intros n id i x y E Y; [discriminate| |]; cbn [find_from] in E.
  - destruct (sid z =? id)%N eqn:Z.
    + injection E as <- <-. rewrite Nat.sub_diag. cbn [upd find_from]. rewrite Y, N.eqb_refl. reflexivity.
    + destruct (find_from_spec _ _ _ _ _ E) as (A & _). replace (i - n) with (S (i - S n)) by lia. cbn [upd find_from]. rewrite Z. eapply IH; eassumption.
  - destruct (find_from_spec _ _ _ _ _ E) as (A & _). replace (i - n) with (S (i - S n)) by lia. cbn [upd find_from]. eapply IH; eassumption.
Qed.
Lemma find_set : forall s id i x y, find s id = Some (i, x) -> sid y = id -> find (set_slot s i (Some y)) id = Some (i, y).
Proof.
  intros s id i x y E Y. unfold find in *. destruct (id =? 0)%N; [discriminate|]. cbn [set_slot slots].
  pose proof (find_from_upd _ _ _ _ _ _ E Y) as F. rewrite Nat.sub_0_r in F. exact F.
Qed.
Lemma free_from_spec : forall l n i, free_from n l = Some i -> n <= i /\ nth_error l (i - n) = Some None.
Proof.
  induction l as [|[z|] l IH]; intros n i E; [discriminate| |]; cbn [free_from] in E.
  - destruct (IH _ _ E) as (A & B). split; [lia|]. replace (i - n) with (S (i - S n)) by lia. exact B.
  - injection E as <-. rewrite Nat.sub_diag. split; [lia|reflexivity].
Qed.
Lemma nth_error_some_lt : forall A (l : list A) i x, nth_error l i = Some x -> i < length l.
Proof. intros A l i x E. apply nth_error_Some. rewrite E. discriminate. Qed.

Lemma at_upd_eq : forall s i o b, i < length (slots s) -> at_slot (set_slot s i o) i b = match o with Some x => if b then dat x else hs x | None => None end.
Proof. intros s i o b L. unfold at_slot. cbn [set_slot slots]. rewrite nth_error_upd_eq by exact L. reflexivity. Qed.
Lemma at_upd_neq : forall s i o j b, j <> i -> at_slot (set_slot s i o) j b = at_slot s j b.
Proof. intros s i o j b NE. unfold at_slot. cbn [set_slot slots]. rewrite nth_error_upd_neq by auto. reflexivity. Qed.
Lemma pinv_set : forall s i o, PInv s ->
  (forall x, o = Some x -> sid x <> 0%N /\ match ph x with Handshaking => hs x <> None | Established => dat x <> None end) -> PInv (set_slot s i o).
Proof.
  intros s i o P H j x E. cbn [set_slot slots] in E. destruct (Nat.eq_dec j i) as [->|NE].
  - destruct (Nat.lt_ge_cases i (length (slots s))) as [L|L].
    + rewrite nth_error_upd_eq in E by exact L. apply H. congruence.
    + assert (F : nth_error (upd (slots s) i o) i = None) by (apply nth_error_None; rewrite length_upd; exact L). congruence.
  - rewrite nth_error_upd_neq in E by auto. exact (P j x E).
Qed.
Lemma ainv_ext : forall A A' t, (forall i b, A' i b = A i b) -> AInv A t -> AInv A' t.
Proof. intros A A' t E. apply ainv_sub. intros i b. left. apply E. Qed.
Lemma pair_neq : forall (i p : nat) (b c : bool), (i, b) <> (p, c) -> i <> p \/ (i = p /\ b = negb c).
Proof. intros i p b c H. destruct (Nat.eq_dec i p) as [->|]; [|left; assumption]. right. split; [reflexivity|]. destruct b, c; try reflexivity; exfalso; apply H; reflexivity. Qed.

(** The current keys of a session are stored. *)
Definition which (p : phase) : bool := match p with Handshaking => false | Established => true end.
Lemma current_at : forall s i x, PInv s -> nth_error (slots s) i = Some (Some x) -> at_slot s i (which (ph x)) = Some (current x).
Proof.
  intros s i x P E. destruct (P i x E) as [_ H]. unfold at_slot, current. rewrite E.
  destruct (ph x); cbn [which]; [destruct (hs x)|destruct (dat x)]; try reflexivity; exfalso; apply H; reflexivity.
Qed.
Lemma set_current_at : forall s i x k, nth_error (slots s) i = Some (Some x) -> at_slot (set_slot s i (Some (set_current x k))) i (which (ph x)) = Some k.
Proof.
  intros s i x k E. rewrite at_upd_eq by (eapply nth_error_some_lt; exact E). unfold set_current. destruct (ph x); reflexivity.
Qed.
Lemma set_current_other : forall s i x k j b, nth_error (slots s) i = Some (Some x) -> (j, b) <> (i, which (ph x)) ->
  at_slot (set_slot s i (Some (set_current x k))) j b = at_slot s j b.
Proof.
  intros s i x k j b E NE. destruct (pair_neq _ _ _ _ NE) as [H|[-> ->]]; [apply at_upd_neq; exact H|].
  rewrite at_upd_eq by (eapply nth_error_some_lt; exact E). unfold at_slot. rewrite E. unfold set_current. destruct (ph x); reflexivity.
Qed.
Lemma pinv_current : forall s i x k, PInv s -> nth_error (slots s) i = Some (Some x) -> PInv (set_slot s i (Some (set_current x k))).
Proof.
  intros s i x k P E. apply pinv_set; [exact P|]. intros y Y. injection Y as <-. destruct (P i x E) as [H1 H2]. unfold set_current.
  destruct (ph x); split; (exact H1 || discriminate).
Qed.
Lemma sinv_last : forall s t o, SInv s t -> SInv (set_last s o) t.
Proof. intros s t o I0. exact I0. Qed.

Lemma sinv_release : forall s t id, SInv s t -> SInv (release s id) t.
Proof.
  intros s t id [A P]. unfold release. destruct (find s id) as [[i x]|] eqn:F; [|split; assumption].
  change (SInv (set_slot s i None) t). destruct (find_spec _ _ _ _ F) as (N1 & _). split.
  - apply (ainv_sub (at_slot s)); [|exact A]. intros j b. destruct (Nat.eq_dec j i) as [->|NE]; [|left; apply at_upd_neq; exact NE].
    right. rewrite at_upd_eq by (eapply nth_error_some_lt; exact N1). reflexivity.
  - apply pinv_set; [exact P|discriminate].
Qed.
Lemma nth_error_nones : forall (l : list (option sess)) i x, nth_error (map (fun _ => @None sess) l) i = Some (Some x) -> False.
Proof. induction l as [|y l IH]; intros [|i] x E; try discriminate. exact (IH i x E). Qed.
Lemma sinv_reset : forall s t, SInv s t -> SInv (reset s) t.
Proof.
  intros s t [A P]. split.
  - apply (ainv_sub (at_slot s)); [|exact A]. intros i b. right. unfold at_slot, reset. cbn [slots].
    destruct (nth_error (map (fun _ => None) (slots s)) i) as [[y|]|] eqn:E; try reflexivity. destruct (nth_error_nones _ _ _ E).
  - intros i x E. destruct (nth_error_nones _ _ _ E).
Qed.

Section Aead.
Variable seal : list N -> list N -> list N -> list N -> list N.
Variable tag : list N -> list N -> list N -> list N -> list N.
Variable opn : list N -> list N -> list N -> list N -> list N -> option (list N).

Lemma decrypt_events : forall m d w o ev, decrypt opn m d w = (o, ev) ->
  (ev = [] /\ o = None) \/ exists aad ct tg pt, ev = [Opened (dkey d) (make_iv (salt d) (count d)) aad ct tg pt] /\ opn (dkey d) (make_iv (salt d) (count d)) aad ct tg = Some pt.
Proof.
  intros m d w o ev E. unfold decrypt in E. cbv zeta in E.
  destruct (plen m <? 6 + 16); [injection E as <- <-; left; split; reflexivity|].
  destruct (plen m - 6 <? _); [injection E as <- <-; left; split; reflexivity|].
  destruct (_ <? 16); [injection E as <- <-; left; split; reflexivity|].
  destruct (negb (k_open w && w_open w)); [injection E as <- <-; left; split; reflexivity|].
  destruct (opn _ _ _ _ _) as [pt|] eqn:O; [|injection E as <- <-; left; split; reflexivity].
  right. do 4 eexists. split; [symmetry; exact (f_equal snd E)|exact O].
Qed.

Definition opened_ok (ev : list event) : Prop := forall k iv aad ct tg pt, In (Opened k iv aad ct tg pt) ev -> opn k iv aad ct tg = Some pt.
Lemma decode_inv : forall s m w s' o ev t, decode opn s m w = (s', o, ev) -> SInv s t -> SInv s' (t ++ ev) /\ derived ev = [] /\ opened_ok ev.
Proof.
  intros s m w s' o ev t E [A P]. unfold decode in E. cbv zeta in E.
  assert (NO : SInv (set_last s None) (t ++ []) /\ derived [] = [] /\ opened_ok []) by (rewrite app_nil_r; split; [split; assumption|]; split; [reflexivity|intros ? ? ? ? ? ? []]).
  destruct (plen m <? 4); [injection E as <- <- <-; exact NO|].
  destruct (find (set_last s None) _) as [[i x]|] eqn:F; [|injection E as <- <- <-; exact NO].
  destruct (max_count <=? count (req (current x)))%N eqn:C; [injection E as <- <- <-; exact NO|].
  clear NO. apply N.leb_gt in C. destruct (find_spec _ _ _ _ F) as (N1 & _). change (slots (set_last s None)) with (slots s) in N1.
  set (s1 := set_slot (set_last s None) i (Some (set_current x (Keys (next (req (current x))) (rsp (current x)))))) in *.
  assert (G : forall ev, ev = [] \/ (exists aad ct tg pt, ev = [Opened (dkey (req (current x))) (make_iv (salt (req (current x))) (count (req (current x)))) aad ct tg pt]) ->
              SInv s1 (t ++ ev)).
  { intros ev0 EV. split.
    - apply (ainv_open (at_slot s) _ t i (which (ph x)) (current x)).
      + apply current_at; assumption.
      + apply (set_current_at (set_last s None)). exact N1.
      + intros j b NE. apply (set_current_other (set_last s None)); assumption.
      + exact C.
      + exact EV.
      + exact A.
    - apply pinv_current; assumption. }
  destruct (enc_mac x).
  - destruct (decrypt opn m (req (current x)) w) as [m' ev'] eqn:D. injection E as <- <- <-.
    destruct (decrypt_events _ _ _ _ _ D) as [[-> _]|(aad & ct & tg & pt & -> & O)].
    + split; [apply sinv_last, G; left; reflexivity|]. split; [reflexivity|intros ? ? ? ? ? ? []].
    + split; [apply sinv_last, G; right; do 4 eexists; reflexivity|]. split; [reflexivity|].
      intros k1 iv1 a1 c1 t1 p1 [J|[]]. injection J as <- <- <- <- <- <-. exact O.
  - injection E as <- <- <-. split; [apply G; left; reflexivity|]. split; [reflexivity|intros ? ? ? ? ? ? []].
Qed.

Lemma encrypt_events : forall m id d w o ok ev, encrypt seal tag m id d w = (o, ok, ev) ->
  ev = [] \/ exists aad pt, ev = [Sealed (dkey d) (make_iv (salt d) (count d)) aad pt].
Proof.
  intros m id d w o ok ev E. unfold encrypt in E. cbv zeta in E.
  destruct (maxr m <? _); [injection E as <- <- <-; left; reflexivity|].
  destruct (negb (k_seal w)); [injection E as <- <- <-; left; reflexivity|].
  destruct (negb (w_seal w)); [injection E as <- <- <-; left; reflexivity|].
  right. destruct (_ <? _); do 2 eexists; symmetry; exact (f_equal snd E).
Qed.

(** The session that FINISH has completed has its keys. *)
Definition fin_ok (s : state) (code : N) : Prop := code = 101%N -> forall id i x, last s = Some id -> find s id = Some (i, x) -> dat x <> None.

Lemma encode_inv : forall s m w s' o ok ev t, encode seal tag s m w = (s', o, ok, ev) -> fin_ok s (nth (off m + 1) (buf m) 0%N) -> SInv s t ->
  SInv s' (t ++ ev) /\ derived ev = [] /\ opened_ok ev.
Proof.
  intros s m w s' o ok ev t E FO I0. unfold encode in E. cbv zeta in E.
  assert (NO : SInv s (t ++ []) /\ derived [] = [] /\ opened_ok []) by (rewrite app_nil_r; split; [assumption|]; split; [reflexivity|intros ? ? ? ? ? ? []]).
  destruct (last s) as [id|] eqn:LA; [|injection E as <- <- <- <-; exact NO].
  destruct (find s id) as [[i x]|] eqn:F; [|injection E as <- <- <- <-; exact NO].
  destruct (max_count <=? count (rsp (current x)))%N eqn:C; [injection E as <- <- <- <-; exact NO|].
  clear NO. apply N.leb_gt in C. destruct (find_spec _ _ _ _ F) as (N1 & SI & NZ). destruct I0 as [A P].
  set (x1 := set_current x (Keys (req (current x)) (next (rsp (current x))))) in *. set (s1 := set_slot s i (Some x1)) in *.
  assert (G : forall ev, ev = [] \/ (exists aad pt, ev = [Sealed (dkey (rsp (current x))) (make_iv (salt (rsp (current x))) (count (rsp (current x)))) aad pt]) ->
              SInv s1 (t ++ ev)).
  { intros ev0 EV. split.
    - apply (ainv_seal (at_slot s) _ t i (which (ph x)) (current x)).
      + apply current_at; assumption.
      + apply set_current_at. exact N1.
      + intros j b NE. apply set_current_other; assumption.
      + exact C.
      + exact EV.
      + exact A.
    - apply pinv_current; assumption. }
  assert (TR : forall ev, ev = [] \/ (exists aad pt, ev = [Sealed (dkey (rsp (current x))) (make_iv (salt (rsp (current x))) (count (rsp (current x)))) aad pt]) ->
               derived ev = [] /\ opened_ok ev).
  { intros ev0 [->|(aad & pt & ->)]; (split; [reflexivity|]); intros ? ? ? ? ? ? J; [destruct J|destruct J as [J|[]]; discriminate]. }
  destruct (enc_mac x); [|injection E as <- <- <- <-; split; [apply G|apply TR]; left; reflexivity].
  destruct (encrypt seal tag m (sid x) (rsp (current x)) w) as [[m' ok'] ev'] eqn:D.
  pose proof (encrypt_events _ _ _ _ _ _ _ D) as EV. specialize (G ev' EV). specialize (TR ev' EV).
  destruct ok'; injection E as <- <- <- <-; (split; [|exact TR]); [|exact G].
  destruct (nth (off m + 1) (buf m) 0 =? 101)%N eqn:C1.
  - destruct (ph x1) eqn:PH; [|exact G]. destruct G as [GA GP].
    assert (N2 : nth_error (slots s1) i = Some (Some x1)) by (unfold s1; cbn [set_slot slots]; rewrite nth_error_upd_eq by (eapply nth_error_some_lt; exact N1); reflexivity).
    assert (DX : dat x1 <> None).
    { apply N.eqb_eq in C1. pose proof (FO C1 id i x LA F) as DX. unfold x1 in *. unfold set_current in *. destruct (ph x); [exact DX|discriminate]. }
    split.
    + apply (ainv_sub (at_slot s1)); [|exact GA]. intros j b. destruct (Nat.eq_dec j i) as [->|NE]; [|left; apply at_upd_neq; exact NE].
      rewrite at_upd_eq by (eapply nth_error_some_lt; exact N2). unfold at_slot at 1. rewrite N2. destruct b; [left|right]; reflexivity.
    + apply pinv_set; [exact GP|]. intros y Y. injection Y as <-. cbn [sid ph dat]. split; [|exact DX]. exact (proj1 (GP i x1 N2)).
  - destruct (nth (off m + 1) (buf m) 0 =? 108)%N; [apply sinv_release; exact G|exact G].
Qed.

Lemma dispatch_inv : forall s e c h s' l ev t, dispatch s e c h = (s', l, ev) -> fresh_derived (t ++ ev) -> SInv s t ->
  SInv s' (t ++ ev) /\ fin_ok s' (nth 1 l 0%N) /\ 2 <= length l /\ seals ev = [] /\ opens ev = [].
Proof.
  intros s e c h s' l ev t E FR I0. unfold dispatch in E. cbv zeta in E.
  assert (NO : forall s' l c, SInv s' t -> l = error_reply (h_ver h) (h_code h) \/ (l = reply h c /\ c <> 101%N) ->
    SInv s' (t ++ []) /\ fin_ok s' (nth 1 l 0%N) /\ 2 <= length l /\ @seals [] = [] /\ @opens [] = []).
  { intros s0 l0 c0 S0 [->|[-> NE]]; rewrite app_nil_r; (split; [exact S0|]); (split; [|split; [cbn; lia|split; reflexivity]]); intros X; cbn in X; congruence. }
  destruct (c =? 132)%N.
  { destruct (h_ok h); injection E as <- <- <-; apply (NO _ _ 4%N); auto; [apply sinv_reset; exact I0|right; split; [reflexivity|discriminate]]. }
  destruct (c =? 228)%N.
  { destruct (last s); [injection E as <- <- <-; apply (NO _ _ 4%N); auto|].
    destruct (h_ok h); [|injection E as <- <- <-; apply (NO _ _ 4%N); auto].
    destruct (create s _ _ _) as [s1|] eqn:CR; [|injection E as <- <- <-; apply (NO _ _ 4%N); auto].
    injection E as <- <- <-. unfold create in CR. set (id := (_ * _ + _)%N) in CR. destruct (id =? 0)%N eqn:Z; [discriminate|].
    destruct (_ <=? live s); [discriminate|]. destruct (find s id); [discriminate|]. destruct (free_from 0 (slots s)) as [i|] eqn:FF; [|discriminate].
    injection CR as <-. destruct (free_from_spec _ _ _ FF) as (_ & N1). rewrite Nat.sub_0_r in N1. apply N.eqb_neq in Z.
    split; [|split; [intros X; cbn in X; discriminate|split; [cbn; lia|split; reflexivity]]].
    destruct I0 as [A P]. change (SInv (set_slot s i (Some (Sess id (h_enc h) Handshaking (Some (fresh_keys (h_keys h))) None))) (t ++ [Derived (fresh_keys (h_keys h))])).
    split.
    - apply (ainv_derive (at_slot s) _ t i false (h_keys h)); try assumption.
      + rewrite at_upd_eq by (eapply nth_error_some_lt; exact N1). reflexivity.
      + intros j b NE. destruct (pair_neq _ _ _ _ NE) as [H|[-> ->]]; [left; apply at_upd_neq; exact H|right].
        rewrite at_upd_eq by (eapply nth_error_some_lt; exact N1). reflexivity.
    - apply pinv_set; [exact P|]. intros y Y. injection Y as <-. split; [exact Z|discriminate]. }
  destruct (c =? 229)%N.
  { unfold in_session in E. destruct (last s) as [id|] eqn:LA; [|injection E as <- <- <-; apply (NO _ _ 4%N); auto].
    destruct (find s id) as [[i x]|] eqn:F; [|injection E as <- <- <-; apply (NO _ _ 4%N); auto].
    destruct (ph x) eqn:PH; [|injection E as <- <- <-; apply (NO _ _ 4%N); auto].
    destruct (h_ok h); [|injection E as <- <- <-; apply (NO _ _ 4%N); auto].
    injection E as <- <- <-. destruct (find_spec _ _ _ _ F) as (N1 & SI & NZ). destruct I0 as [A P]. split; [split|].
    - apply (ainv_derive (at_slot s) _ t i true (h_keys h)); try assumption.
      + rewrite at_upd_eq by (eapply nth_error_some_lt; exact N1). reflexivity.
      + intros j b NE. left. destruct (pair_neq _ _ _ _ NE) as [H|[-> ->]]; [apply at_upd_neq; exact H|].
        rewrite at_upd_eq by (eapply nth_error_some_lt; exact N1). unfold at_slot. rewrite N1. reflexivity.
    - apply pinv_set; [exact P|]. intros y Y. injection Y as <-. cbn [sid ph hs]. pose proof (P i x N1) as Q. rewrite PH in *. exact Q.
    - split; [|split; [cbn; lia|split; reflexivity]]. intros _ id' i' x' L' F'. cbn [set_slot last] in L'. rewrite LA in L'. injection L' as <-.
      rewrite (find_set s id i x) in F' by (assumption || reflexivity). injection F' as <- <-. discriminate. }
  destruct (c =? 236)%N.
  { destruct (in_session s Established); [destruct (h_ok h)|]; injection E as <- <- <-; apply (NO _ _ 108%N); auto. right. split; [reflexivity|discriminate]. }
  destruct (c =? 254)%N.
  { destruct e; [destruct (in_session s Established)|]; try destruct (h_ok h); injection E as <- <- <-; apply (NO _ _ 126%N); auto; right; (split; [reflexivity|discriminate]). }
  destruct (h_ok h); cbn [andb] in E; [|injection E as <- <- <-; apply (NO _ _ 126%N); auto].
  destruct (h_code h =? 101)%N eqn:X; [injection E as <- <- <-; apply (NO _ _ 126%N); auto|]. cbn [orb] in E.
  destruct (h_code h =? 108)%N; injection E as <- <- <-; apply (NO _ _ (h_code h)); auto. right. split; [reflexivity|apply N.eqb_neq; exact X].
Qed.

Lemma nth_put : forall m l m' i, put m l = Some m' -> i < length l -> nth (off m' + i) (buf m') 0%N = nth i l 0%N.
Proof.
  intros m l m' i E L. unfold put in E. destruct (_ <=? _) eqn:B; [|discriminate]. injection E as <-. cbn [buf off]. apply Nat.leb_le in B.
  unfold splice. rewrite app_nth2; rewrite firstn_length_le by lia; [|lia]. rewrite app_nth1; [f_equal; lia|lia].
Qed.

Lemma process_inv : forall s r s' ev o t, process seal tag opn s r = (s', ev, o) -> fresh_derived (t ++ ev) -> SInv s t -> SInv s' (t ++ ev) /\ opened_ok ev.
Proof.
  intros s r s' ev o t E FR I0. unfold process in E. cbv zeta in E.
  destruct (if encrypted r then _ else _) as [[s1 d] ev1] eqn:D.
  assert (I1 : SInv s1 (t ++ ev1) /\ derived ev1 = [] /\ opened_ok ev1).
  { destruct (encrypted r); [eapply decode_inv; [exact D|apply sinv_last; exact I0]|].
    injection D as <- <- <-. rewrite app_nil_r. split; [apply sinv_last; exact I0|]. split; [reflexivity|intros ? ? ? ? ? ? []]. }
  destruct I1 as (I1 & _ & O1). destruct d as [m1|]; [|injection E as <- <- <-; split; assumption].
  destruct (plen m1 <? 2); [injection E as <- <- <-; split; assumption|].
  destruct (dispatch s1 (encrypted r) (nth 1 (payload m1) 0%N) (handle r)) as [[s2 l] ev2] eqn:DI.
  assert (O2 : opened_ok ev2 -> opened_ok (ev1 ++ ev2)).
  { intros X k iv aad ct tg pt J. apply in_app_or in J. destruct J as [J|J]; [exact (O1 _ _ _ _ _ _ J)|exact (X _ _ _ _ _ _ J)]. }
  assert (NOO : forall l, opens l = [] -> opened_ok l).
  { clear. intros l E k iv aad ct tg pt J. exfalso. assert (X : In (k, iv) (opens l)) by (apply in_flat_map; eexists; split; [exact J|left; reflexivity]). rewrite E in X. exact X. }
  assert (G : fresh_derived (t ++ ev1 ++ ev2) -> SInv s2 (t ++ ev1 ++ ev2) /\ fin_ok s2 (nth 1 l 0%N) /\ 2 <= length l /\ opened_ok (ev1 ++ ev2)).
  { intro FR'. rewrite app_assoc in *. destruct (dispatch_inv _ _ _ _ _ _ _ _ DI FR' I1) as (A & B & C & _ & Q). split; [exact A|]. split; [exact B|]. split; [exact C|].
    apply O2, NOO, Q. }
  destruct (put m1 l) as [m2|] eqn:PU.
  - destruct (encrypted r).
    + destruct (encode seal tag s2 m2 (wks r)) as [[[s3 m3] ok] ev3] eqn:EN. injection E as <- <- <-.
      destruct G as (I2 & FO & LL & OO). { apply (fresh_app _ ev3). rewrite <- !app_assoc. exact FR. }
      rewrite <- (nth_put _ _ _ 1 PU) in FO by lia.
      destruct (encode_inv _ _ _ _ _ _ _ _ EN FO I2) as (I3 & _ & O3). split; [rewrite <- !app_assoc in I3; exact I3|].
      intros k iv aad ct tg pt J. rewrite app_assoc in J. apply in_app_or in J. destruct J as [J|J]; [exact (OO _ _ _ _ _ _ J)|exact (O3 _ _ _ _ _ _ J)].
    + injection E as <- <- <-. destruct (G FR) as (I2 & _ & _ & OO). split; assumption.
  - injection E as <- <- <-. destruct (G FR) as (I2 & _ & _ & OO). split; assumption.
Qed.

Lemma run_inv : forall l s s' ev os t, run seal tag opn s l = (s', ev, os) -> fresh_derived (t ++ ev) -> SInv s t -> SInv s' (t ++ ev) /\ opened_ok ev.
Proof.
  induction l as [|r l IH]; intros s s' ev os t E FR I0; cbn [run] in E.
  - injection E as <- <- <-. rewrite app_nil_r. split; [exact I0|intros ? ? ? ? ? ? []].
  - destruct (process seal tag opn s r) as [[s1 e1] o1] eqn:P. destruct (run seal tag opn s1 l) as [[s2 e2] o2] eqn:R. injection E as <- <- <-.
    rewrite app_assoc in *. destruct (process_inv _ _ _ _ _ t P (fresh_app _ _ FR) I0) as (I1 & O1). destruct (IH _ _ _ _ _ R FR I1) as (I2 & O2). split; [exact I2|].
    intros k iv aad ct tg pt J. apply in_app_or in J. destruct J as [J|J]; [exact (O1 _ _ _ _ _ _ J)|exact (O2 _ _ _ _ _ _ J)].
Qed.
Lemma start_inv : forall n, SInv (start n) [].
Proof.
  intro n. assert (E : forall i x, nth_error (repeat (@None sess) n) i = Some (Some x) -> False).
  { intros i x J. apply nth_error_In, repeat_spec in J. discriminate. }
  split; [|intros i x J; destruct (E i x J)]. assert (Z : forall i b, at_slot (start n) i b = None).
  { intros i b. unfold at_slot, start. cbn [slots]. destruct (nth_error (repeat None n) i) as [[y|]|] eqn:J; try reflexivity. destruct (E _ _ J). }
  constructor.
  - intros i b k J. rewrite Z in J. discriminate.
  - intros i b k J. rewrite Z in J. discriminate.
  - intros i b k J. rewrite Z in J. discriminate.
  - intros i b k j c k' J. rewrite Z in J. discriminate.
  - constructor.
  - constructor.
  - intros k iv [].
  - intros k iv [].
Qed.
End Aead.
