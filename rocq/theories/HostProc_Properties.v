(** Protecting the flash of a host with two chips: what the host can boot from. *)
From Coq Require Import List NArith Bool Lia Arith.
From Verif Require Import HostFw_Model HostProc_Model HostProc_Spec HostProc_Proofs HostProc_Flow_Proofs
  HostProc_Main_Proofs HostProc_Live_Proofs.
Import ListNotations.

Ltac splits := repeat match goal with |- _ /\ _ => split end.

Section Claims.

Variables (P C Img : Type).
Variable lookup : P -> C -> option (list region).
Variable valid : bool -> P -> C -> bool.
Variable same : P -> P -> C -> bool.
Variable empty : P -> bool.
Variable applied : Img -> C.
Variable c : config.

Notation since_power_on := (since_power_on P C Img lookup valid same empty applied c).
Notation in_order := (in_order P C Img lookup valid same empty applied c).
Notation step := (step P C Img lookup valid same empty applied c).
Notation power_on := (power_on P C Img lookup valid same empty c).
Notation verified := (verified P C lookup valid).
Notation recovered := (recovered C Img applied).
Notation granted := (granted P C lookup).
Notation pfms := (pfms P C Img).
Notation images := (images P C Img).
Notation boot_chip := (boot_chip P C Img).

Definition good (ps : list P) (is : list Img) (_ : option P) (v : C) (l : list region) : Prop :=
  (verified ps v \/ recovered is v) /\ granted ps v l.

Lemma good_more : forall ps is ps' is' a b v l,
  (forall p, In p ps -> In p ps') -> (forall i, In i is -> In i is') -> good ps is a v l -> good ps' is' b v l.
Proof.
  intros ps is ps' is' a b v l H K [A B]. split.
  - destruct A as [(p & f & A & D & E)|(i & A & E)]; [left; exists p, f; auto|right; exists i; auto].
  - destruct B as [B|(p & r & n & B & D & E)]; [left; exact B|right; exists p, r, n; auto].
Qed.

Lemma good_valid : forall ps is full p v l n a,
  In p ps -> lookup p v = Some l -> valid full p v = true -> good ps is a v (firstn n l).
Proof.
  intros ps is full p v l n a A B D. split.
  - left. exists p, full. splits; auto. congruence.
  - right. exists p, l, n. auto.
Qed.

Lemma good_same : forall ps is p g v l l0 n a,
  In p ps -> good ps is (Some g) v l0 -> same p g v = true -> lookup p v = Some l ->
  good ps is a v (firstn n l).
Proof.
  intros ps is p g v l l0 n a A [B _] _ D. split; [exact B|]. right. exists p, l, n. auto.
Qed.

Lemma act_in : forall (s : st P C Img) p, act s = Some p -> In p (pfms s).
Proof. intros s p E. unfold HostProc_Spec.pfms. rewrite E. left. reflexivity. Qed.

Lemma pend_in : forall (s : st P C Img) p, pend s = Some p -> In p (pfms s).
Proof. intros s p E. unfold HostProc_Spec.pfms. rewrite E. apply in_or_app. right. left. reflexivity. Qed.

Lemma Inv_more : forall (T T' : option P -> C -> list region -> Prop) (s : st P C Img),
  (forall a v l, T a v l -> T' a v l) -> Inv P C Img T s -> Inv P C Img T' s.
Proof.
  intros T T' s H (A & B & [D|[(D1 & D2 & D3) E]]); unfold Inv; splits; auto.
  right. split; [|exact E]. unfold G. splits; auto.
Qed.

Lemma since_Inv : forall ps is s, since_power_on ps is s -> Inv P C Img (good ps is) s.
Proof.
  intros ps is s H. induction H as [o s s' [B1 B2] E|ps is s x o s' r H IH E T].
  - pose proof (power_on_spec P C Img lookup valid same empty c o (fun p => In p (pfms s)) (good (pfms s) [])) as W.
    specialize (W (fun full p v l n a A B D _ => good_valid (pfms s) [] full p v l n a A B D)).
    specialize (W (fun p g v l l0 n a A B D F _ => good_same (pfms s) [] p g v l l0 n a A B D F)).
    specialize (W s B1 B2 (act_in s) (pend_in s)). unfold wp in W. rewrite E in W. apply W. reflexivity.
  - set (ps' := pfms s ++ ps). set (is' := images s ++ is).
    assert (I1 : Inv P C Img (good ps' is') s).
    { eapply Inv_more; [|exact IH]. intros a v l K. eapply good_more; [| |exact K]; intros; apply in_or_app; auto. }
    pose proof (step_spec P C Img lookup valid same empty applied c o (fun p => In p ps') (good ps' is')) as W.
    specialize (W (fun full p v l n a A B D _ => good_valid ps' is' full p v l n a A B D)).
    specialize (W (fun p g v l l0 n a A B D F _ => good_same ps' is' p g v l l0 n a A B D F)).
    specialize (W (fun a v l K => K) (fun i => In i is')).
    assert (Hrec : forall i a, In i is' -> good ps' is' a (applied i) []).
    { intros i a K. split; [right; exists i; auto|left; reflexivity]. }
    specialize (W Hrec x s I1).
    assert (Ua : forall p, act s = Some p -> In p ps') by (intros; apply in_or_app; left; apply act_in; assumption).
    assert (Uq : forall p, pend s = Some p -> In p ps') by (intros; apply in_or_app; left; apply pend_in; assumption).
    assert (Ur : forall i, rec s = Some i -> In i is').
    { intros i K. apply in_or_app. left. unfold HostProc_Spec.images. rewrite K. left. reflexivity. }
    specialize (W Ua Uq Ur (fun _ _ _ _ v l K => K)). unfold wp in W. rewrite E in W. apply W. exact T.
Qed.

(** Whenever the host has the flash and the device is not in bypass, it boots from a chip that it
    cannot write, whose content passed verification with a PFM the device had, or is a recovery image
    the device had; and it can only write regions of the other chip that a PFM grants.  This holds
    after every operation and also in the middle of one that keeps retrying. *)
Theorem C48_host_only_boots_verified_flash : forall ps is s x o s' r,
  since_power_on ps is s -> step o x s = (s', r) -> tidy P C Img x s s' r ->
  (forall b, x = BypassMode b -> r <> None) ->
  host_can_access s' = true -> byp s' = false ->
  f_mode s' = Dual /\
  (verified (pfms s ++ ps) (boot_chip s') \/ recovered (images s ++ is) (boot_chip s')) /\
  granted (pfms s ++ ps) (boot_chip s') (f_rw s').
Proof.
  intros ps is s x o s' r H E T Hb Ha Hy.
  destruct r as [r|].
  - pose proof (since_Inv _ _ _ (stepped _ _ _ _ _ _ _ _ _ _ _ _ _ _ _ _ H E T)) as (_ & _ & [K|[(K1 & K2 & K3) _]]).
    + congruence.
    + split; [exact K1|]. exact K3.
  - set (ps' := pfms s ++ ps). set (is' := images s ++ is).
    pose proof (since_Inv _ _ _ H) as IH.
    assert (I1 : Inv P C Img (good ps' is') s).
    { eapply Inv_more; [|exact IH]. intros a v l K. eapply good_more; [| |exact K]; intros; apply in_or_app; auto. }
    pose proof (step_spec P C Img lookup valid same empty applied c o (fun p => In p ps') (good ps' is')) as W.
    specialize (W (fun full p v l n a A B D _ => good_valid ps' is' full p v l n a A B D)).
    specialize (W (fun p g v l l0 n a A B D F _ => good_same ps' is' p g v l l0 n a A B D F)).
    specialize (W (fun a v l K => K) (fun i => In i is')).
    assert (Hrec : forall i a, In i is' -> good ps' is' a (applied i) []).
    { intros i a K. split; [right; exists i; auto|left; reflexivity]. }
    specialize (W Hrec x s I1).
    assert (Ua : forall p, act s = Some p -> In p ps') by (intros; apply in_or_app; left; apply act_in; assumption).
    assert (Uq : forall p, pend s = Some p -> In p ps') by (intros; apply in_or_app; left; apply pend_in; assumption).
    assert (Ur : forall i, rec s = Some i -> In i is').
    { intros i K. apply in_or_app. left. unfold HostProc_Spec.images. rewrite K. left. reflexivity. }
    specialize (W Ua Uq Ur (fun _ _ _ _ v l K => K)). unfold wp in W. rewrite E in W.
    assert (Hnb : forall b, x <> BypassMode b).
    { intros b F. apply (Hb b F). reflexivity. }
    destruct (W Ha T Hnb) as (_ & _ & [K|(K1 & K2 & K3)]); [congruence|].
    split; [exact K1|exact K3].
Qed.

(** The host cannot change the chip it boots from. *)
Theorem C48_host_writes_leave_boot_chip : forall ps is s v o s' r,
  since_power_on ps is s -> byp s = false -> step o (HostWrites v) s = (s', r) ->
  boot_chip s' = boot_chip s /\ f_ro s' = f_ro s.
Proof.
  intros ps is s v o s' r H Hb E. pose proof (since_Inv _ _ _ H) as (_ & _ & [K|[(K1 & _) _]]); [congruence|].
  cbn [step HostProc_Model.step] in E. unfold bind, set, ret in E. injection E as <- <-.
  unfold boot_chip, HostProc_Spec.boot_chip, writable_chip. rewrite K1.
  destruct (host_can_access s); [|auto]. cbn [chip f_ro w_chip].
  replace (Bool.eqb (f_ro s) (negb (f_ro s))) with false by (destruct (f_ro s); reflexivity). auto.
Qed.

Definition trusted (is : list Img) (a : option P) (v : C) (l : list region) : Prop :=
  forall p, a = Some p ->
    (valid false p v = true \/ recovered is v) /\
    (l = [] \/ exists r n, lookup p v = Some r /\ l = firstn n r).

(** What makes comparing two PFMs instead of verifying the flash sound. *)
Hypothesis H_same : forall p g v, same p g v = true -> valid false g v = true -> valid false p v = true.
Hypothesis H_full : forall p v, valid true p v = true -> valid false p v = true.

Lemma trusted_more : forall is is' a v l,
  (forall i, In i is -> In i is') -> trusted is a v l -> trusted is' a v l.
Proof.
  intros is is' a v l K T p E. destruct (T p E) as [[A|(i & A & B)] D]; (split; [|exact D]); [left; exact A|].
  right. exists i. auto.
Qed.

Lemma trusted_valid : forall is (o : oracle C) full p v l n a,
  act_ok o = true -> lookup p v = Some l -> valid full p v = true -> (act_ok o = true -> a = Some p) ->
  trusted is a v (firstn n l).
Proof.
  intros is o full p v l n a Ho A B D q E. specialize (D Ho). assert (p = q) by congruence. subst q. split.
  - left. destruct full; auto.
  - right. exists l, n. auto.
Qed.

Lemma trusted_same : forall is (o : oracle C) p g v l l0 n a,
  act_ok o = true -> trusted is (Some g) v l0 -> same p g v = true -> lookup p v = Some l ->
  (act_ok o = true -> a = Some p) -> trusted is a v (firstn n l).
Proof.
  intros is o p g v l l0 n a Ho A B D F q E. specialize (F Ho). assert (p = q) by congruence. subst q.
  destruct (A g eq_refl) as [K _]. split.
  - destruct K as [K|K]; [left; eauto|right; exact K].
  - right. exists l, n. auto.
Qed.

Lemma in_order_step : forall is s x o,
  Inv P C Img (trusted is) s -> act_ok o = true -> orderly P C Img x s ->
  wp P C Img (step o x)
    (fun r s' => (tidy P C Img x s s' (Some r) -> Inv P C Img (trusted (images s ++ is)) s'))
    (fun s' => host_can_access s' = true -> tidy P C Img x s s' None -> (forall b, x <> BypassMode b) ->
       Inv0 P C Img (trusted (images s ++ is)) s') s.
Proof.
  intros is s x o IH Ho Hx. set (is' := images s ++ is).
  assert (I1 : Inv P C Img (trusted is') s).
  { eapply Inv_more; [|exact IH]. intros a v l K. eapply trusted_more; [|exact K]. intros; apply in_or_app; auto. }
  eapply wp_mono; [eapply (step_spec P C Img lookup valid same empty applied c o (fun _ => True) (trusted is'))
                   with (R := fun i => In i is')| |]; auto.
  - intros full p v l n a _ A B D. eapply trusted_valid; eauto.
  - intros p g v l l0 n a _ A B D F. eapply trusted_same; eauto.
  - intros a v l _ p K. discriminate.
  - intros i a K p _. split; [right; exists i; auto|left; reflexivity].
  - intros i K. apply in_or_app. left. unfold HostProc_Spec.images. rewrite K. left. reflexivity.
  - intros a q b -> v l K. cbn [orderly HostProc_Spec.orderly] in Hx.
    destruct Hx as [Hx|Hx]; subst a; [exact K|]. intros p E. discriminate.
  - intros r s' [A _]. exact A.
Qed.

Lemma order_Inv : forall is s, in_order is s -> Inv P C Img (trusted is) s.
Proof.
  intros is s H. induction H as [o s s' [B1 B2] Ho E|is s x o s' r H IH Ho E T Hx].
  - pose proof (power_on_spec P C Img lookup valid same empty c o (fun _ => True) (trusted [])) as W.
    assert (W' : wp P C Img (power_on o) (fun r s' => r = SOk -> Inv P C Img (trusted []) s') (fun _ => True) s).
    { eapply wp_mono; [apply W; auto| |auto].
      - intros full p v l n a _ A B D. eapply trusted_valid; eauto.
      - intros p g v l l0 n a _ A B D F. eapply trusted_same; eauto.
      - intros r s1 [A _]. exact A. }
    unfold wp in W'. rewrite E in W'. apply W'. reflexivity.
  - pose proof (in_order_step is s x o IH Ho Hx) as W. unfold wp in W. rewrite E in W. apply W. exact T.
Qed.

(** While the PFM manager activates what it is asked to, it is the PFM that is active now that accepts
    what the host boots from, and its regions are the only ones the host can write. *)
Theorem C49_active_pfm_accepts_boot_flash : forall is s x o s' r p,
  in_order is s -> step o x s = (s', r) -> act_ok o = true -> orderly P C Img x s ->
  tidy P C Img x s s' r -> (forall b, x = BypassMode b -> r <> None) ->
  host_can_access s' = true -> byp s' = false -> act s' = Some p ->
  (valid false p (boot_chip s') = true \/ recovered (images s ++ is) (boot_chip s')) /\
  (f_rw s' = [] \/ exists l n, lookup p (boot_chip s') = Some l /\ f_rw s' = firstn n l).
Proof.
  intros is s x o s' r p H E Ho Hx T Hb Ha Hy Hp.
  pose proof (in_order_step is s x o (order_Inv _ _ H) Ho Hx) as W. unfold wp in W. rewrite E in W.
  assert (K : Inv0 P C Img (trusted (images s ++ is)) s').
  { destruct r as [r|].
    - apply Inv_Inv0, W, T.
    - apply W; auto. intros b F. apply (Hb b F). reflexivity. }
  destruct K as (_ & _ & [K|(_ & _ & K)]); [congruence|]. apply K, Hp.
Qed.

End Claims.

Print Assumptions C48_host_only_boots_verified_flash.
Print Assumptions C48_host_writes_leave_boot_chip.
Print Assumptions C49_active_pfm_accepts_boot_flash.

(** After a power-on, whether it succeeds, fails or still retries, the host has the flash only if it
    was verified, or the device is in bypass, the flash is not supported, or the pending PFM is the
    empty one that asks for bypass.  An error keeps the host away from the flash. *)
Theorem C50_power_on_fails_closed :
  forall P C Img lookup valid same empty c o (s s' : st P C Img) r,
  booted P C Img s -> power_on P C Img lookup valid same empty c o s = (s', r) ->
  host_can_access s' = true -> byp s' = false -> unsup s' = false ->
  (forall q, pend s = Some q -> empty q = false) ->
  (r = None \/ r = Some SOk) /\ f_mode s' = Dual /\
  verified P C lookup valid (pfms P C Img s) (boot_chip P C Img s') /\
  granted P C lookup (pfms P C Img s) (boot_chip P C Img s') (f_rw s').
Proof.
  intros P C Img lookup valid same empty c o s s' r [B1 B2] E Ha Hb Hu He.
  pose proof (power_on_spec P C Img lookup valid same empty c o (fun p => In p (pfms P C Img s))
    (fun _ v l => verified P C lookup valid (pfms P C Img s) v /\ granted P C lookup (pfms P C Img s) v l)) as W.
  assert (W1 : forall full p v l n (a : option P), In p (pfms P C Img s) -> lookup p v = Some l ->
     valid full p v = true -> (act_ok o = true -> a = Some p) ->
     verified P C lookup valid (pfms P C Img s) v /\ granted P C lookup (pfms P C Img s) v (firstn n l)).
  { intros full p v l n a A B D _. split; [exists p, full; splits; auto; congruence|right; exists p, l, n; auto]. }
  specialize (W W1).
  assert (W2 : forall p g v l (l0 : list region) n (a : option P), In p (pfms P C Img s) ->
     (verified P C lookup valid (pfms P C Img s) v /\ granted P C lookup (pfms P C Img s) v l0) ->
     same p g v = true -> lookup p v = Some l -> (act_ok o = true -> a = Some p) ->
     verified P C lookup valid (pfms P C Img s) v /\ granted P C lookup (pfms P C Img s) v (firstn n l)).
  { intros p g v l l0 n a A [B _] _ D _. split; [exact B|right; exists p, l, n; auto]. }
  specialize (W W2 s B1 B2 (act_in P C Img s) (pend_in P C Img s)).
  unfold wp in W. rewrite E in W.
  assert (Hq : ~ (exists q, pend s = Some q /\ empty q = true)).
  { intros (q & K1 & K2). rewrite (He q K1) in K2. discriminate. }
  destruct r as [r|].
  - destruct W as (K1 & K2 & _). destruct (K2 Ha) as [->|[K|K]]; [|congruence|contradiction].
    destruct (K1 eq_refl) as (_ & _ & [K|[(G1 & G2 & G3) _]]); [congruence|]. auto.
  - destruct (W Ha) as [(_ & _ & [K|[(G1 & G2 & G3) _]])|[K|K]]; [congruence|auto|congruence|contradiction].
Qed.
Print Assumptions C50_power_on_fails_closed.

Theorem C51_power_on_bypass_only_without_pfm :
  forall P C Img lookup valid same empty c o (s s' : st P C Img) r,
  booted P C Img s -> power_on P C Img lookup valid same empty c o s = (s', Some r) -> byp s' = true ->
  act s = None \/ exists q, pend s = Some q /\ empty q = true.
Proof.
  intros P C Img lookup valid same empty c o s s' r [B1 B2] E Hb.
  pose proof (power_on_spec P C Img lookup valid same empty c o (fun _ => True) (fun _ _ _ => True)
    (fun _ _ _ _ _ _ _ _ _ _ => I) (fun _ _ _ _ _ _ _ _ _ _ _ _ => I) s B1 B2 (fun _ _ => I) (fun _ _ => I)) as W.
  unfold wp in W. rewrite E in W. apply W, Hb.
Qed.
Print Assumptions C51_power_on_bypass_only_without_pfm.

(** Nothing but the explicit operation, the lack of a PFM or the empty PFM takes the device from
    active protection to bypass. *)
Theorem C51_protection_is_not_dropped :
  forall P C Img lookup valid same empty applied c ps is (s : st P C Img) x o s' r,
  since_power_on P C Img lookup valid same empty applied c ps is s ->
  step P C Img lookup valid same empty applied c o x s = (s', Some r) ->
  byp s = false -> byp s' = true ->
  act s = None \/ (exists q, pend s = Some q /\ empty q = true) \/ exists b, x = BypassMode b.
Proof.
  intros P C Img lookup valid same empty applied c ps is s x o s' r H E Hs Hb.
  assert (I1 : Inv P C Img (fun _ _ _ => True) s).
  { eapply Inv_more; [|eapply since_Inv, H]. auto. }
  pose proof (step_spec P C Img lookup valid same empty applied c o (fun _ => True) (fun _ _ _ => True)
    (fun _ _ _ _ _ _ _ _ _ _ => I) (fun _ _ _ _ _ _ _ _ _ _ _ _ => I) (fun _ _ _ _ => I) (fun _ => True)
    (fun _ _ _ => I) x s I1 (fun _ _ => I) (fun _ _ => I) (fun _ _ => I) (fun _ _ _ _ _ _ _ => I)) as W.
  unfold wp in W. rewrite E in W. destruct W as [_ W]. destruct (W Hb) as [[K|K]|K]; [congruence|tauto|tauto].
Qed.
Print Assumptions C51_protection_is_not_dropped.

(** ** When nothing fails *)

(** A device that protects the host with PFM [p]. *)
Definition protecting {P C Img} (p : P) (s : st P C Img) : Prop :=
  unsup s = false /\ byp s = false /\ ovr s = None /\ preval s = PNone /\ act s = Some p /\ f_ro s = nv_ro s.

Theorem C52_power_on_boots_valid_flash :
  forall P C Img lookup valid same empty c o (s : st P C Img) p l,
  no_faults C o -> act s = Some p -> pend s = None -> dirty s = false ->
  lookup p (chip s (nv_ro s)) = Some l -> valid false p (chip s (nv_ro s)) = true ->
  exists s', power_on P C Img lookup valid same empty c o s = (s', Some SOk) /\
    host_can_access s' = true /\ byp s' = false /\ f_ro s' = nv_ro s /\
    boot_chip P C Img s' = chip s (nv_ro s) /\ f_rw s' = l /\ act s' = Some p.
Proof.
  intros P C Img lookup valid same empty c o s p l H A1 A2 A3 A4 A5.
  destruct (power_on_boots P C Img lookup valid same empty c o H p l s A1 A2 A3 A4 A5)
    as (s' & r & E & -> & B1 & B2 & B3 & B4 & B5 & B6 & B7 & B8).
  exists s'. splits; auto. unfold boot_chip. rewrite B4, B2. reflexivity.
Qed.
Print Assumptions C52_power_on_boots_valid_flash.

(** A host reset after the host wrote its flash: what was written becomes what the host boots from
    if and only if it verifies. *)
Theorem C52_valid_update_is_booted :
  forall P C Img lookup valid same empty c o (s : st P C Img) p l,
  no_faults C o -> protecting p s -> pend s = None -> dirty s = true ->
  (events s = OnPorAndReset \/ events s = OnAll) ->
  lookup p (chip s (negb (f_ro s))) = Some l -> valid true p (chip s (negb (f_ro s))) = true ->
  exists s', soft_reset P C Img lookup valid same empty c o s = (s', Some SOk) /\
    host_can_access s' = true /\ byp s' = false /\ f_ro s' = negb (f_ro s) /\ nv_ro s' = f_ro s' /\
    boot_chip P C Img s' = chip s (negb (f_ro s)) /\ f_rw s' = l /\ dirty s' = false /\ act s' = Some p.
Proof.
  intros P C Img lookup valid same empty c o s p l H A0 A1 A2 A3 A4 A5.
  destruct (soft_reset_accepts P C Img lookup valid same empty c o H p l s A0 A1 A2 A3 A4 A5)
    as (s' & r & E & -> & B1 & B2 & B3 & B4 & B5 & B6 & B7 & B8 & B9).
  exists s'. splits; auto. unfold boot_chip. rewrite B4, B2. reflexivity.
Qed.
Print Assumptions C52_valid_update_is_booted.

Theorem C52_invalid_update_is_not_booted :
  forall P C Img lookup valid same empty c o (s : st P C Img) p,
  no_faults C o -> protecting p s -> pend s = None -> dirty s = true ->
  (events s = OnPorAndReset \/ events s = OnAll) ->
  lookup p (chip s (negb (f_ro s))) = None \/ valid true p (chip s (negb (f_ro s))) = false ->
  lookup p (chip s (f_ro s)) <> None ->
  exists s', soft_reset P C Img lookup valid same empty c o s = (s', Some SValidation) /\
    host_can_access s' = true /\ byp s' = false /\ f_ro s' = f_ro s /\ nv_ro s' = f_ro s' /\
    boot_chip P C Img s' = boot_chip P C Img s /\ f_rw s' = f_rw s /\ dirty s' = false /\ act s' = Some p.
Proof.
  intros P C Img lookup valid same empty c o s p H A0 A1 A2 A3 A4 A5.
  destruct (soft_reset_rejects P C Img lookup valid same empty c o H p s A0 A1 A2 A3 A4 A5)
    as (s' & r & E & -> & B1 & B2 & B3 & B4 & B5 & B6 & B7 & B8 & B9).
  exists s'. splits; auto. unfold boot_chip. rewrite B4, B2. reflexivity.
Qed.
Print Assumptions C52_invalid_update_is_not_booted.

Theorem C52_pending_pfm_takes_effect :
  forall P C Img lookup valid same empty c o (s : st P C Img) p q l,
  no_faults C o -> protecting p s -> pend s = Some q -> empty q = false -> dirty s = false ->
  pfm_dirty s = true -> (events s = OnPorAndRunTime \/ events s = OnAll) ->
  lookup q (chip s (f_ro s)) = Some l -> valid false q (chip s (f_ro s)) = true ->
  exists s', run_time_verification P C Img lookup valid same empty c o s = (s', Some SOk) /\
    host_can_access s' = true /\ byp s' = false /\ f_ro s' = f_ro s /\
    boot_chip P C Img s' = boot_chip P C Img s /\ f_rw s' = l /\ act s' = Some q /\ pend s' = None.
Proof.
  intros P C Img lookup valid same empty c o s p q l H A0 A1 A2 A3 A4 A5 A6 A7.
  destruct (run_time_activates P C Img lookup valid same empty c o H p q l s A0 A1 A2 A3 A4 A5 A6 A7)
    as (s' & r & E & -> & B1 & B2 & B3 & B4 & B5 & B6 & B7 & B8 & B9).
  exists s'. splits; auto. unfold boot_chip. rewrite B4, B2. reflexivity.
Qed.
Print Assumptions C52_pending_pfm_takes_effect.

(** ** Cases *)

(** PFMs, flash contents and recovery images are numbers.  A PFM accepts the content with its own
    number, knows the firmware in all contents below 100, and lets the host write one region. *)
Definition d_lookup (p v : nat) : option (list region) :=
  if Nat.ltb v 100 then Some [mkR (N.of_nat p) 16] else None.
Definition d_valid (full : bool) (p v : nat) : bool := Nat.eqb p v.
Definition d_same (p g v : nat) : bool := Nat.eqb p g.
Definition d_empty (p : nat) : bool := Nat.eqb p 0.
Definition d_applied (i : nat) : nat := i.
Definition d_config : config := mkConfig false false true.
Definition quiet : oracle nat := mkO (fun _ => mkA false false false 77) true 3.

Definition d_st := st nat nat nat.
Definition d_start (a b : nat) (ac pe : option nat) (di : bool) : d_st :=
  mkSt (fun cs : bool => if cs then b else a) true Dual false [] false true false None di OnAll true PNone
    false false ac pe (Some 9) 0.
Definition d_power_on := power_on nat nat nat d_lookup d_valid d_same d_empty d_config.
Definition d_step := step nat nat nat d_lookup d_valid d_same d_empty d_applied d_config.
Definition d_since := since_power_on nat nat nat d_lookup d_valid d_same d_empty d_applied d_config.
Definition d_order := in_order nat nat nat d_lookup d_valid d_same d_empty d_applied d_config.

(** What is seen of a state. *)
Definition view (s : d_st) :=
  (chip s false, chip s true, host_can_access s, f_mode s, f_ro s, f_rw s, (byp s, unsup s, act s, pend s, dirty s)).

Lemma ran : forall A B (m : A * option B) r, snd m = Some r -> m = (fst m, Some r).
Proof. intros A B [a b] r E. cbn in *. congruence. Qed.
Ltac ran := apply ran; vm_compute; reflexivity.

Definition after_boot : d_st := fst (d_power_on quiet (d_start 3 8 (Some 3) None false)).

Lemma after_boot_since : d_since [3] [] after_boot.
Proof. apply (started nat nat nat d_lookup d_valid d_same d_empty d_applied d_config quiet (d_start 3 8 (Some 3) None false)). split; reflexivity. ran. Qed.

Lemma after_boot_order : d_order [] after_boot.
Proof. apply (in_order_started nat nat nat d_lookup d_valid d_same d_empty d_applied d_config quiet (d_start 3 8 (Some 3) None false)). split; reflexivity. reflexivity. ran. Qed.

Example boot_is_verified : view after_boot = (3, 8, true, Dual, false, [mkR 3 16], (false, false, Some 3, None, false)).
Proof. vm_compute. reflexivity. Qed.

(** The host writes an update the PFM accepts, its filter reports it, and the host is reset. *)
Definition updated : d_st :=
  fst (d_step quiet SoftReset (fst (d_step quiet DirtyIrq (fst (d_step quiet (HostWrites 3) after_boot))))).
Example valid_update_is_swapped_in :
  view updated = (77, 3, true, Dual, true, [mkR 3 16], (false, false, Some 3, None, false)).
Proof. vm_compute. reflexivity. Qed.

Lemma updated_order : d_order [9; 9; 9] updated.
Proof.
  change [9; 9; 9] with (images nat nat nat (fst (d_step quiet DirtyIrq (fst (d_step quiet (HostWrites 3) after_boot)))) ++
    images nat nat nat (fst (d_step quiet (HostWrites 3) after_boot)) ++ images nat nat nat after_boot ++ []).
  eapply in_order_stepped with (x := SoftReset) (o := quiet) (r := SOk); [|reflexivity|ran|exact I|exact I].
  eapply in_order_stepped with (x := DirtyIrq) (o := quiet) (r := SOk); [|reflexivity|ran|exact I|exact I].
  eapply in_order_stepped with (x := HostWrites 3) (o := quiet) (r := SOk); [|reflexivity|ran|exact I|exact I].
  exact after_boot_order.
Qed.

(** C49 applied to the update: the hypotheses on the comparison hold, and the conclusion is about a
    chip the host had written. *)
Example C49_applies :
  (forall p g v, d_same p g v = true -> d_valid false g v = true -> d_valid false p v = true) /\
  boot_chip nat nat nat (fst (d_step quiet RunTimeVerification updated)) = 3 /\
  act (fst (d_step quiet RunTimeVerification updated)) = Some 3 /\
  host_can_access (fst (d_step quiet RunTimeVerification updated)) = true.
Proof.
  split; [|vm_compute; auto].
  intros p g v. unfold d_same, d_valid. rewrite !Nat.eqb_eq. congruence.
Qed.

(** An update the PFM does not accept. *)
Example invalid_update_is_left_out :
  view (fst (d_step quiet SoftReset (fst (d_step quiet DirtyIrq (fst (d_step quiet (HostWrites 4) after_boot)))))) =
  (3, 77, true, Dual, false, [mkR 3 16], (false, false, Some 3, None, false)).
Proof. vm_compute. reflexivity. Qed.

(** A pending PFM that accepts the boot chip, one that does not, and the empty one. *)
Example pending_pfm_same_flash :
  view (fst (d_power_on quiet (d_start 5 8 (Some 3) (Some 5) false))) =
  (5, 8, true, Dual, false, [mkR 5 16], (false, false, Some 5, None, false)).
Proof. vm_compute. reflexivity. Qed.
Example pending_pfm_other_flash :
  view (fst (d_power_on quiet (d_start 3 8 (Some 3) (Some 5) false))) =
  (3, 8, true, Dual, false, [mkR 3 16], (false, false, Some 3, Some 5, false)).
Proof. vm_compute. reflexivity. Qed.
Example empty_pfm_asks_for_bypass :
  byp (fst (d_step quiet RunTimeVerification (fst (d_step quiet (PfmsAre (Some 3) (Some 0) true) after_boot)))) = true.
Proof. vm_compute. reflexivity. Qed.

(** Power-on with a flash no PFM accepts keeps the host away. *)
Definition not_booted : d_st := fst (d_power_on quiet (d_start 4 8 (Some 3) None false)).
Example invalid_flash_is_not_booted :
  snd (d_power_on quiet (d_start 4 8 (Some 3) None false)) = Some SValidation /\ host_can_access not_booted = false.
Proof. vm_compute. auto. Qed.

Example C52_cases :
  no_faults nat quiet /\ protecting 3 after_boot /\
  protecting 3 (fst (d_step quiet DirtyIrq (fst (d_step quiet (HostWrites 3) after_boot)))) /\
  dirty (fst (d_step quiet DirtyIrq (fst (d_step quiet (HostWrites 3) after_boot)))) = true.
Proof. vm_compute. repeat split; auto; discriminate. Qed.

(** ** Where the code does not keep to it *)

(** After a failed power-on the rollback that host_irq_handler_power_on tries next gives the host the
    flash whatever comes of it. *)
Theorem C50_rollback_after_failed_power_on_refuted :
  ~ (forall (s s1 s2 : d_st) o r o2 b r2,
       booted nat nat nat s -> d_power_on o s = (s1, Some r) -> r <> SOk -> host_can_access s1 = false ->
       d_step o2 (Rollback b) s1 = (s2, Some r2) -> byp s2 = false -> unsup s2 = false ->
       host_can_access s2 = true ->
       verified nat nat d_lookup d_valid (pfms nat nat nat s) (boot_chip nat nat nat s2)).
Proof.
  intro H.
  destruct (H (d_start 4 8 (Some 3) None false) not_booted (fst (d_step quiet (Rollback true) not_booted))
             quiet SValidation quiet true SValidation) as (p & full & A & B & D);
    try ran; try (vm_compute; reflexivity); try discriminate; [split; reflexivity|].
  vm_compute in A. destruct A as [A|[]]. subst p. vm_compute in D. discriminate.
Qed.
Print Assumptions C50_rollback_after_failed_power_on_refuted.

(** The same for a reset of the host, when a pending PFM has arrived since. *)
Theorem C50_soft_reset_after_failed_power_on_refuted :
  ~ (forall (s s1 s2 s3 : d_st) o r q o2 r2 o3 r3,
       booted nat nat nat s -> d_power_on o s = (s1, Some r) -> r <> SOk -> host_can_access s1 = false ->
       d_step o2 (PfmsAre (act s1) (Some q) true) s1 = (s2, Some r2) ->
       d_step o3 SoftReset s2 = (s3, Some r3) -> byp s3 = false -> unsup s3 = false ->
       host_can_access s3 = true ->
       verified nat nat d_lookup d_valid (pfms nat nat nat s2 ++ pfms nat nat nat s) (boot_chip nat nat nat s3)).
Proof.
  intro H.
  set (s2 := fst (d_step quiet (PfmsAre (act not_booted) (Some 5) true) not_booted)).
  destruct (H (d_start 4 8 (Some 3) None false) not_booted s2 (fst (d_step quiet SoftReset s2))
             quiet SValidation 5 quiet SOk quiet SValidation) as (p & full & A & B & D);
    try ran; try (vm_compute; reflexivity); try discriminate; [split; reflexivity|].
  vm_compute in A. destruct A as [A|[A|[A|[]]]]; subst p; vm_compute in D; discriminate.
Qed.
Print Assumptions C50_soft_reset_after_failed_power_on_refuted.

Definition second_clear_fails : oracle nat :=
  mkO (fun n => mkA (Nat.eqb n 6) false false 77) true 3.

(** When the empty PFM asks for bypass but the PFMs cannot be removed, power-on reports an error and
    gives the host the flash unverified; the active PFM is still there and bypass is not recorded. *)
Theorem C50_power_on_clear_failure_refuted :
  ~ (forall (s s' : d_st) o r,
       booted nat nat nat s -> d_power_on o s = (s', r) -> host_can_access s' = true ->
       byp s' = false -> unsup s' = false ->
       verified nat nat d_lookup d_valid (pfms nat nat nat s) (boot_chip nat nat nat s')).
Proof.
  intro H.
  set (s := d_start 4 8 (Some 3) (Some 0) false).
  destruct (H s (fst (d_power_on second_clear_fails s)) second_clear_fails (Some SOther)) as (p & full & A & B & D);
    try ran; try (vm_compute; reflexivity); [split; reflexivity|].
  vm_compute in A. destruct A as [A|[A|[]]]; subst p; vm_compute in D; discriminate.
Qed.
Print Assumptions C50_power_on_clear_failure_refuted.

Definition chips_unknown : oracle nat := mkO (fun n => mkA (Nat.eqb n 2) false true 77) true 3.

(** Flash chips that are not supported are handed to the host without verification. *)
Theorem C50_power_on_unsupported_flash_refuted :
  ~ (forall (s s' : d_st) o r,
       booted nat nat nat s -> d_power_on o s = (s', r) -> host_can_access s' = true ->
       byp s' = false -> (forall q, pend s = Some q -> d_empty q = false) ->
       verified nat nat d_lookup d_valid (pfms nat nat nat s) (boot_chip nat nat nat s')).
Proof.
  intro H.
  set (s := d_start 4 8 (Some 3) None false).
  destruct (H s (fst (d_power_on chips_unknown s)) chips_unknown (Some SUnsupFlash)) as (p & full & A & B & D);
    try ran; try (vm_compute; reflexivity); try discriminate; [split; reflexivity|].
  vm_compute in A. destruct A as [A|[]]. subst p. vm_compute in D. discriminate.
Qed.
Print Assumptions C50_power_on_unsupported_flash_refuted.

Definition programming_fails_once (k : nat) : oracle nat := mkO (fun n => mkA (Nat.eqb n k) false false 77) true 3.

(** The restriction [tidy] in C48 is needed: a recovery image that could not be programmed leaves the
    host booting from whatever is on the chip. *)
Theorem C48_failed_recovery_refuted :
  ~ (forall ps is (s s' : d_st) o r,
       d_since ps is s -> d_step o ApplyRecovery s = (s', Some r) -> host_can_access s' = true -> byp s' = false ->
       verified nat nat d_lookup d_valid (pfms nat nat nat s ++ ps) (boot_chip nat nat nat s') \/
       recovered nat nat d_applied (images nat nat nat s ++ is) (boot_chip nat nat nat s')).
Proof.
  intro H.
  set (o := programming_fails_once (tick after_boot + 4)).
  destruct (H [3] [] after_boot (fst (d_step o ApplyRecovery after_boot)) o SOther after_boot_since)
    as [(p & full & A & B & D)|(i & A & B)]; try ran; try (vm_compute; reflexivity).
  - vm_compute in A. destruct A as [A|[A|[]]]; subst p; vm_compute in D; discriminate.
  - vm_compute in A. destruct A as [A|[]]. subst i. vm_compute in B. discriminate.
Qed.
Print Assumptions C48_failed_recovery_refuted.

(** Nor does the rollback without a PFM verify what it copies over the boot chip. *)
Theorem C48_rollback_without_pfm_refuted :
  ~ (forall ps is (s s' : d_st) o b r,
       d_since ps is s -> d_step o (Rollback b) s = (s', Some r) -> host_can_access s' = true -> byp s' = false ->
       verified nat nat d_lookup d_valid (pfms nat nat nat s ++ ps) (boot_chip nat nat nat s') \/
       recovered nat nat d_applied (images nat nat nat s ++ is) (boot_chip nat nat nat s')).
Proof.
  intro H.
  set (s := fst (d_step quiet (PfmsAre None None false) after_boot)).
  assert (Hs : d_since (pfms nat nat nat after_boot ++ [3]) (images nat nat nat after_boot ++ []) s).
  { eapply stepped with (x := PfmsAre None None false) (o := quiet) (r := SOk);
      [exact after_boot_since|ran|exact I]. }
  destruct (H _ _ s (fst (d_step quiet (Rollback false) s)) quiet false SOk Hs)
    as [(p & full & A & B & D)|(i & A & B)]; try ran; try (vm_compute; reflexivity).
  - vm_compute in A. destruct A as [A|[A|[]]]; subst p; vm_compute in D; discriminate.
  - vm_compute in A. repeat (destruct A as [A|A]; [subst i; vm_compute in B; discriminate|]). destruct A.
Qed.
Print Assumptions C48_rollback_without_pfm_refuted.

Definition no_activation : oracle nat := mkO (fun _ => mkA false false false 77) false 3.

(** When a pending PFM was accepted and cannot be activated, the device goes on with an active PFM
    that does not accept what the host runs. *)
Theorem C49_failed_activation_refuted :
  ~ (forall is (s s' : d_st) x o r p,
       d_order is s -> d_step o x s = (s', r) -> orderly nat nat nat x s -> tidy nat nat nat x s s' r ->
       (forall b, x = BypassMode b -> r <> None) ->
       host_can_access s' = true -> byp s' = false -> act s' = Some p ->
       d_valid false p (boot_chip nat nat nat s') = true \/
       recovered nat nat d_applied (images nat nat nat s ++ is) (boot_chip nat nat nat s')).
Proof.
  intro H.
  set (s1 := fst (d_step quiet (PfmsAre (Some 3) (Some 5) true) after_boot)).
  set (s2 := fst (d_step quiet (HostWrites 5) s1)).
  set (s3 := fst (d_step quiet DirtyIrq s2)).
  assert (Hs : d_order (images nat nat nat s2 ++ images nat nat nat s1 ++ images nat nat nat after_boot ++ []) s3).
  { eapply in_order_stepped with (x := DirtyIrq) (o := quiet) (r := SOk); [|reflexivity|ran|exact I|exact I].
    eapply in_order_stepped with (x := HostWrites 5) (o := quiet) (r := SOk); [|reflexivity|ran|exact I|exact I].
    eapply in_order_stepped with (x := PfmsAre (Some 3) (Some 5) true) (o := quiet) (r := SOk);
      [exact after_boot_order|reflexivity|ran|exact I|left; vm_compute; reflexivity]. }
  destruct (H _ s3 (fst (d_step no_activation SoftReset s3)) SoftReset no_activation (Some SOk) 3 Hs)
    as [D|(i & A & B)]; try ran; try (vm_compute; reflexivity); try exact I; try discriminate.
  vm_compute in A. repeat (destruct A as [A|A]; [subst i; vm_compute in B; discriminate|]). destruct A.
Qed.
Print Assumptions C49_failed_activation_refuted.
