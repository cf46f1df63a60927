(** Proofs about the keys and IVs of SPDM sessions. *)
From Coq Require Import List NArith Bool Arith Lia ZArith.
From Verif Require Import Base SpdmSession_Model SpdmSession_Spec.
From Verif Require Tpm_Model Tpm_Proofs.
Import ListNotations.

(** ** IVs *)
Lemma le64_inj : forall a b, (a < 2 ^ 64)%N -> (b < 2 ^ 64)%N -> le64 a = le64 b -> a = b.
Proof.
  intros a b A B E. change le64 with Tpm_Model.le64 in E. rewrite <- (Tpm_Proofs.le64_value a A), <- (Tpm_Proofs.le64_value b B), E. reflexivity.
Qed.
Lemma xors_inj : forall a b c, length b = length a -> length c = length a -> xors a b = xors a c -> b = c.
Proof.
  induction a as [|x a IH]; intros [|y b] [|z c] LB LC E; try discriminate; [reflexivity|]. unfold xors in E. cbn [combine map fst snd] in E.
  injection E as E1 E2. cbn [length] in *. f_equal; [|apply IH; [lia|lia|exact E2]].
  rewrite <- (N.lxor_0_l y), <- (N.lxor_0_l z), <- (N.lxor_nilpotent x), !N.lxor_assoc, E1. reflexivity.
Qed.
Lemma length_xors : forall a b, length (xors a b) = Nat.min (length a) (length b).
Proof. intros. unfold xors. rewrite map_length, combine_length. reflexivity. Qed.
Lemma make_iv_inj : forall sl a b, length sl = 12 -> (a < 2 ^ 64)%N -> (b < 2 ^ 64)%N -> make_iv sl a = make_iv sl b -> a = b.
Proof.
  intros sl a b L A B E. apply le64_inj; try assumption. unfold make_iv in E.
  assert (L8 : length (firstn 8 sl) = 8) by (rewrite firstn_length; lia).
  apply (xors_inj (firstn 8 sl)); [rewrite L8; reflexivity|rewrite L8; reflexivity|].
  apply app_inv_tail in E. exact E.
Qed.

(** ** Traces *)
Lemma derived_app : forall a b, derived (a ++ b) = derived a ++ derived b.
Proof. intros. apply flat_map_app. Qed.
Lemma seals_app : forall a b, seals (a ++ b) = seals a ++ seals b.
Proof. intros. apply flat_map_app. Qed.
Lemma opens_app : forall a b, opens (a ++ b) = opens a ++ opens b.
Proof. intros. apply flat_map_app. Qed.
Lemma NoDup_app_l : forall A (a b : list A), NoDup (a ++ b) -> NoDup a.
Proof. induction a as [|x a IH]; intros b H; [constructor|]. inversion H as [|? ? N1 N2]; subst. constructor; [intro I1; apply N1, in_or_app; auto|exact (IH b N2)]. Qed.
Lemma NoDup_snoc : forall A (a : list A) x, NoDup a -> ~ In x a -> NoDup (a ++ [x]).
Proof.
  induction a as [|y a IH]; intros x ND NI; [constructor; [intros []|constructor]|]. inversion ND as [|? ? N1 N2]; subst. cbn [app]. constructor.
  - intro J. apply in_app_or in J. destruct J as [J|[J|[]]]; [exact (N1 J)|]. apply NI. left. symmetry. exact J.
  - apply IH; [exact N2|]. intro J. apply NI. right. exact J.
Qed.
Lemma NoDup_last : forall A (a : list A) x, NoDup (a ++ [x]) -> ~ In x a.
Proof.
  induction a as [|y a IH]; intros x ND; [intros []|]. inversion ND as [|? ? N1 N2]; subst. intros [J|J]; [|exact (IH x N2 J)].
  subst y. apply N1, in_or_app. right. left. reflexivity.
Qed.
Lemma fresh_app : forall a b, fresh_derived (a ++ b) -> fresh_derived a.
Proof.
  intros a b (F1 & F2 & F3). rewrite derived_app in *. rewrite !map_app in *. apply Forall_app in F3.
  split; [exact (NoDup_app_l _ _ _ F1)|]. split; [exact (NoDup_app_l _ _ _ F2)|apply F3].
Qed.

(** ** The invariant over the stored keys *)
Definition store := nat -> bool -> option keys.
Definition like (k k0 : keys) : Prop :=
  dkey (req k) = dkey (req k0) /\ salt (req k) = salt (req k0) /\ dkey (rsp k) = dkey (rsp k0) /\ salt (rsp k) = salt (rsp k0).
Definition below (l : list (list N * list N)) (d : dir) : Prop :=
  (count d <= max_count)%N /\ length (salt d) = 12 /\
  forall iv, In (dkey d, iv) l -> exists n, (n < count d)%N /\ iv = make_iv (salt d) n.
Record AInv (A : store) (t : list event) : Prop := {
  a_from : forall i b k, A i b = Some k -> exists k0, In k0 (derived t) /\ like k k0;
  a_rsp : forall i b k, A i b = Some k -> below (seals t) (rsp k);
  a_req : forall i b k, A i b = Some k -> below (opens t) (req k);
  a_one : forall i b k j c k', A i b = Some k -> A j c = Some k' -> dkey (rsp k) = dkey (rsp k') \/ dkey (req k) = dkey (req k') -> i = j /\ b = c;
  a_seals : NoDup (seals t);
  a_opens : NoDup (opens t);
  a_sealed : forall k iv, In (k, iv) (seals t) -> exists k0, In k0 (derived t) /\ dkey (rsp k0) = k;
  a_opened : forall k iv, In (k, iv) (opens t) -> exists k0, In k0 (derived t) /\ dkey (req k0) = k }.

Lemma below_lt : forall l d, below l d -> (count d < max_count)%N -> ~ In (dkey d, make_iv (salt d) (count d)) l.
Proof.
  intros l d (B & L & F) LT J. destruct (F _ J) as (n & LN & E). unfold max_count in *. apply make_iv_inj in E; [|exact L|lia|lia]. lia.
Qed.
Lemma below_next : forall l d, below l d -> (count d < max_count)%N -> below (l ++ [(dkey d, make_iv (salt d) (count d))]) (next d).
Proof.
  intros l d (B & L & F) LT. unfold below; cbn [next dkey salt count]; split; [lia|]. split; [exact L|]. intros iv J. apply in_app_or in J. destruct J as [J|[J|[]]].
  - destruct (F _ J) as (n & LN & E). exists n. split; [lia|exact E].
  - injection J as J. exists (count d). split; [lia|symmetry; exact J].
Qed.
Lemma below_skip : forall l d, below l d -> (count d < max_count)%N -> below l (next d).
Proof.
  intros l d (B & L & F) LT. unfold below; cbn [next dkey salt count]; split; [lia|]. split; [exact L|]. intros iv J.
  destruct (F _ J) as (n & LN & E). exists n. split; [lia|exact E].
Qed.
Lemma below_other : forall l d k iv, below l d -> dkey d <> k -> below (l ++ [(k, iv)]) d.
Proof.
  intros l d k iv (B & L & F) NE. split; [exact B|]. split; [exact L|]. intros iv' J. apply in_app_or in J. destruct J as [J|[J|[]]]; [exact (F _ J)|].
  injection J as J _. exfalso. apply NE. symmetry. exact J.
Qed.

Lemma ainv_sub : forall A A' t, (forall i b, A' i b = A i b \/ A' i b = None) -> AInv A t -> AInv A' t.
Proof.
  intros A A' t S I0. assert (U : forall i b k, A' i b = Some k -> A i b = Some k) by (intros i b k E; destruct (S i b); congruence).
  destruct I0 as [F R Q O NS NO S1 O1]. constructor; try assumption.
  - intros i b k E. apply (F i b k (U i b k E)).
  - intros i b k E. apply (R i b k (U i b k E)).
  - intros i b k E. apply (Q i b k (U i b k E)).
  - intros i b k j c k' E E'. apply (O i b k j c k' (U i b k E) (U j c k' E')).
Qed.

Lemma ainv_derive : forall A A' t p c k, A' p c = Some (fresh_keys k) -> (forall i b, (i, b) <> (p, c) -> A' i b = A i b \/ A' i b = None) ->
  fresh_derived (t ++ [Derived (fresh_keys k)]) -> AInv A t -> AInv A' (t ++ [Derived (fresh_keys k)]).
Proof.
  intros A A' t p c k E S (F1 & F2 & F3) I0. destruct I0 as [F R Q O NS NO S1 O1].
  rewrite derived_app in *. change (derived [Derived (fresh_keys k)]) with [fresh_keys k] in *. rewrite map_app in F1, F2.
  apply NoDup_last in F1. apply NoDup_last in F2. apply Forall_app in F3. destruct F3 as [F3 F4]. inversion F4 as [|? ? [L1 L2] _]; subst.
  assert (EQ : forall i b, {(i, b) = (p, c)} + {(i, b) <> (p, c)}) by (intros; decide equality; [apply bool_dec|apply Nat.eq_dec]).
  assert (U : forall i b x, (i, b) <> (p, c) -> A' i b = Some x -> A i b = Some x) by (intros i b x NE X; destruct (S i b NE); congruence).
  assert (NEWR : forall i b x, A i b = Some x -> dkey (rsp x) <> dkey (rsp (fresh_keys k))).
  { intros i b x X Y. destruct (F i b x X) as (k0 & J & (_ & _ & Z & _)). apply F1. rewrite <- Y, Z. apply (in_map (fun k => dkey (rsp k)) _ k0 J). }
  assert (NEWQ : forall i b x, A i b = Some x -> dkey (req x) <> dkey (req (fresh_keys k))).
  { intros i b x X Y. destruct (F i b x X) as (k0 & J & (Z & _)). apply F2. rewrite <- Y, Z. apply (in_map (fun k => dkey (req k)) _ k0 J). }
  assert (SE : seals (t ++ [Derived (fresh_keys k)]) = seals t) by (rewrite seals_app; apply app_nil_r).
  assert (OE : opens (t ++ [Derived (fresh_keys k)]) = opens t) by (rewrite opens_app; apply app_nil_r).
  constructor; rewrite ?SE, ?OE, ?derived_app; try assumption.
  - intros i b x X. destruct (EQ i b) as [Y|Y].
    + injection Y as -> ->. rewrite E in X. injection X as <-. exists (fresh_keys k). split; [apply in_or_app; right; left; reflexivity|repeat split].
    + destruct (F i b x (U i b x Y X)) as (k0 & J & L). exists k0. split; [apply in_or_app; left; exact J|exact L].
  - intros i b x X. destruct (EQ i b) as [Y|Y]; [|exact (R i b x (U i b x Y X))]. injection Y as -> ->. rewrite E in X. injection X as <-.
    split; [apply N.le_0_l|]. split; [exact L2|]. intros iv J. exfalso. destruct (S1 _ _ J) as (k0 & J0 & Z). apply F1. rewrite <- Z. apply (in_map (fun k => dkey (rsp k)) _ k0 J0).
  - intros i b x X. destruct (EQ i b) as [Y|Y]; [|exact (Q i b x (U i b x Y X))]. injection Y as -> ->. rewrite E in X. injection X as <-.
    split; [apply N.le_0_l|]. split; [exact L1|]. intros iv J. exfalso. destruct (O1 _ _ J) as (k0 & J0 & Z). apply F2. rewrite <- Z. apply (in_map (fun k => dkey (req k)) _ k0 J0).
  - intros i b x j d y X Y Z. destruct (EQ i b) as [V|V], (EQ j d) as [W|W].
    + split; congruence.
    + injection V as -> ->. rewrite E in X. injection X as <-. exfalso. destruct Z as [Z|Z]; symmetry in Z; [exact (NEWR _ _ _ (U j d y W Y) Z)|exact (NEWQ _ _ _ (U j d y W Y) Z)].
    + injection W as -> ->. rewrite E in Y. injection Y as <-. exfalso. destruct Z as [Z|Z]; [exact (NEWR _ _ _ (U i b x V X) Z)|exact (NEWQ _ _ _ (U i b x V X) Z)].
    + exact (O i b x j d y (U i b x V X) (U j d y W Y) Z).
  - intros x iv J. destruct (S1 x iv J) as (k0 & J0 & Z). exists k0. split; [apply in_or_app; left; exact J0|exact Z].
  - intros x iv J. destruct (O1 x iv J) as (k0 & J0 & Z). exists k0. split; [apply in_or_app; left; exact J0|exact Z].
Qed.

Lemma ainv_seal : forall A A' t p c k ev, A p c = Some k -> A' p c = Some (Keys (req k) (next (rsp k))) ->
  (forall i b, (i, b) <> (p, c) -> A' i b = A i b) -> (count (rsp k) < max_count)%N ->
  ev = [] \/ (exists aad pt, ev = [Sealed (dkey (rsp k)) (make_iv (salt (rsp k)) (count (rsp k))) aad pt]) -> AInv A t -> AInv A' (t ++ ev).
Proof.
  intros A A' t p c k ev E E' S LT EV I0. destruct I0 as [F R Q O NS NO S1 O1].
  assert (EQ : forall i b, {(i, b) = (p, c)} + {(i, b) <> (p, c)}) by (intros; decide equality; [apply bool_dec|apply Nat.eq_dec]).
  assert (U : forall i b x, A' i b = Some x -> exists y, A i b = Some y /\ like x y /\ req x = req y).
  { intros i b x X. destruct (EQ i b) as [V|V].
    - injection V as -> ->. rewrite E' in X. injection X as <-. exists k. repeat split; exact E.
    - rewrite (S i b V) in X. exists x. repeat split; exact X. }
  assert (DE : derived (t ++ ev) = derived t) by (rewrite derived_app; destruct EV as [->|(aad & pt & ->)]; apply app_nil_r).
  assert (OE : opens (t ++ ev) = opens t) by (rewrite opens_app; destruct EV as [->|(aad & pt & ->)]; apply app_nil_r).
  pose proof (R p c k E) as BK.
  constructor; rewrite ?DE, ?OE; try assumption.
  - intros i b x X. destruct (U i b x X) as (y & Y & (L1 & L2 & L3 & L4) & _). destruct (F i b y Y) as (k0 & J & (M1 & M2 & M3 & M4)).
    exists k0. split; [exact J|]. repeat split; congruence.
  - intros i b x X. destruct (EQ i b) as [V|V].
    + injection V as -> ->. rewrite E' in X. injection X as <-. cbn [rsp]. rewrite seals_app. destruct EV as [->|(aad & pt & ->)].
      * change (seals []) with (@nil (list N * list N)). rewrite app_nil_r. apply below_skip; assumption.
      * apply below_next; assumption.
    + rewrite (S i b V) in X. pose proof (R i b x X) as B. rewrite seals_app. destruct EV as [->|(aad & pt & ->)].
      * change (seals []) with (@nil (list N * list N)). rewrite app_nil_r. exact B.
      * apply below_other; [exact B|]. intro Z. apply V. destruct (O i b x p c k X E (or_introl Z)) as [-> ->]. reflexivity.
  - intros i b x X. destruct (U i b x X) as (y & Y & _ & RQ). rewrite RQ. exact (Q i b y Y).
  - intros i b x j d y X Y Z. destruct (U i b x X) as (x0 & X0 & (L1 & _ & L3 & _) & _). destruct (U j d y Y) as (y0 & Y0 & (M1 & _ & M3 & _) & _).
    apply (O i b x0 j d y0 X0 Y0). destruct Z as [Z|Z]; [left|right]; congruence.
  - rewrite seals_app. destruct EV as [->|(aad & pt & ->)]; [rewrite app_nil_r; exact NS|]. apply NoDup_snoc; [exact NS|]. apply below_lt; assumption.
  - intros x iv J. rewrite seals_app in J. destruct EV as [->|(aad & pt & ->)]; [rewrite app_nil_r in J; exact (S1 x iv J)|].
    apply in_app_or in J. destruct J as [J|[J|[]]]; [exact (S1 x iv J)|]. injection J as <- _. destruct (F p c k E) as (k0 & J0 & (_ & _ & Z & _)).
    exists k0. split; [exact J0|symmetry; exact Z].
Qed.

Lemma ainv_open : forall A A' t p c k ev, A p c = Some k -> A' p c = Some (Keys (next (req k)) (rsp k)) ->
  (forall i b, (i, b) <> (p, c) -> A' i b = A i b) -> (count (req k) < max_count)%N ->
  ev = [] \/ (exists aad ct tg pt, ev = [Opened (dkey (req k)) (make_iv (salt (req k)) (count (req k))) aad ct tg pt]) -> AInv A t -> AInv A' (t ++ ev).
Proof.
  intros A A' t p c k ev E E' S LT EV I0. destruct I0 as [F R Q O NS NO S1 O1].
  assert (EQ : forall i b, {(i, b) = (p, c)} + {(i, b) <> (p, c)}) by (intros; decide equality; [apply bool_dec|apply Nat.eq_dec]).
  assert (U : forall i b x, A' i b = Some x -> exists y, A i b = Some y /\ like x y /\ rsp x = rsp y).
  { intros i b x X. destruct (EQ i b) as [V|V].
    - injection V as -> ->. rewrite E' in X. injection X as <-. exists k. repeat split; exact E.
    - rewrite (S i b V) in X. exists x. repeat split; exact X. }
  assert (DE : derived (t ++ ev) = derived t) by (rewrite derived_app; destruct EV as [->|(aad & ct & tg & pt & ->)]; apply app_nil_r).
  assert (SE : seals (t ++ ev) = seals t) by (rewrite seals_app; destruct EV as [->|(aad & ct & tg & pt & ->)]; apply app_nil_r).
  pose proof (Q p c k E) as BK.
  constructor; rewrite ?DE, ?SE; try assumption.
  - intros i b x X. destruct (U i b x X) as (y & Y & (L1 & L2 & L3 & L4) & _). destruct (F i b y Y) as (k0 & J & (M1 & M2 & M3 & M4)).
    exists k0. split; [exact J|]. repeat split; congruence.
  - intros i b x X. destruct (U i b x X) as (y & Y & _ & RQ). rewrite RQ. exact (R i b y Y).
  - intros i b x X. destruct (EQ i b) as [V|V].
    + injection V as -> ->. rewrite E' in X. injection X as <-. cbn [req]. rewrite opens_app. destruct EV as [->|(aad & ct & tg & pt & ->)].
      * change (opens []) with (@nil (list N * list N)). rewrite app_nil_r. apply below_skip; assumption.
      * apply below_next; assumption.
    + rewrite (S i b V) in X. pose proof (Q i b x X) as B. rewrite opens_app. destruct EV as [->|(aad & ct & tg & pt & ->)].
      * change (opens []) with (@nil (list N * list N)). rewrite app_nil_r. exact B.
      * apply below_other; [exact B|]. intro Z. apply V. destruct (O i b x p c k X E (or_intror Z)) as [-> ->]. reflexivity.
  - intros i b x j d y X Y Z. destruct (U i b x X) as (x0 & X0 & (L1 & _ & L3 & _) & _). destruct (U j d y Y) as (y0 & Y0 & (M1 & _ & M3 & _) & _).
    apply (O i b x0 j d y0 X0 Y0). destruct Z as [Z|Z]; [left|right]; congruence.
  - rewrite opens_app. destruct EV as [->|(aad & ct & tg & pt & ->)]; [rewrite app_nil_r; exact NO|]. apply NoDup_snoc; [exact NO|]. apply below_lt; assumption.
  - intros x iv J. rewrite opens_app in J. destruct EV as [->|(aad & ct & tg & pt & ->)]; [rewrite app_nil_r in J; exact (O1 x iv J)|].
    apply in_app_or in J. destruct J as [J|[J|[]]]; [exact (O1 x iv J)|]. injection J as <- _. destruct (F p c k E) as (k0 & J0 & (Z & _)).
    exists k0. split; [exact J0|symmetry; exact Z].
Qed.
