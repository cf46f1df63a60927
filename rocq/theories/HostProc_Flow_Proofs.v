(** The flows keep the host on content that passed verification. *)
From Coq Require Import List NArith Bool Lia Arith.
From Verif Require Import HostFw_Model HostProc_Model HostProc_Spec HostProc_Proofs.
Import ListNotations.

Section Flows.

Variables (P C Img : Type).
Variable lookup : P -> C -> option (list region).
Variable valid : bool -> P -> C -> bool.
Variable same : P -> P -> C -> bool.
Variable empty : P -> bool.
Variable applied : Img -> C.
Variable c : config.
Variable o : oracle C.

Notation st := (st P C Img).
Notation M := (M P C Img).
Notation wp := (wp P C Img).
Notation still := (still P C Img).

(** The PFMs that count, and what is claimed of the boot chip and the regions: [TT a v l] for the
    active PFM [a], the content [v] and the regions [l]. *)
Variable U : P -> Prop.
Variable TT : option P -> C -> list region -> Prop.
Hypothesis H_valid : forall full p v l n a,
  U p -> lookup p v = Some l -> valid full p v = true -> (act_ok o = true -> a = Some p) ->
  TT a v (firstn n l).
Hypothesis H_same : forall p g v l l0 n a,
  U p -> TT (Some g) v l0 -> same p g v = true -> lookup p v = Some l ->
  (act_ok o = true -> a = Some p) -> TT a v (firstn n l).
Hypothesis H_none : forall a v l, TT a v l -> TT None v l.

Definition G (s : st) : Prop :=
  f_mode s = Dual /\ f_ro s = ro s /\ TT (act s) (chip s (f_ro s)) (f_rw s).

Definition unheld (s s' : st) : Prop := f_on s' = f_on s /\ acc s' = acc s.

Lemma still_G : forall s s', still s s' -> G s -> G s'.
Proof.
  intros s s' H (A & B & D). pose proof (still_ro _ _ _ _ _ H) as E.
  destruct H. unfold G. rewrite E. split; [congruence|]. split; [congruence|].
  rewrite q_act, q_ro, q_rw. rewrite B in *. rewrite q_chip. exact D.
Qed.

Ltac splits := repeat match goal with |- _ /\ _ => split end.

Ltac fields :=
  cbn [chip f_on f_mode f_ro f_rw f_dirty acc nv_ro ovr dirty events pfm_dirty preval byp unsup act
       pend rec tick next w_chip w_on w_mode w_ro w_rw w_fdirty w_acc w_nv w_ovr w_dirty w_events
       w_pfm_dirty w_preval w_byp w_unsup w_pfms w_rec] in *.

(** What a verification with [p] leaves. *)
Definition after (is_bypass : bool) (s : st) (r : status) (s' : st) : Prop :=
  f_on s' = f_on s /\ acc s' = acc s /\ unsup s' = unsup s /\ preval s' = PNone /\ rec s' = rec s /\
  if ok r
  then G s' /\ byp s' = false /\ ovr s' = ovr s
  else still s s'.

Lemma activated_act : forall used s s' p,
  activated P C Img o used s s' -> (used = false -> act s = Some p) -> (used = true -> pend s = Some p) ->
  act_ok o = true -> act s' = Some p.
Proof.
  intros used s s' p H H1 H2 H3. unfold activated in H. destruct used.
  - rewrite (H2 eq_refl), H3 in H. apply H.
  - rewrite (H1 eq_refl) in H. apply H.
Qed.

Lemma validate_rw_spec : forall p s,
  wp (validate_rw _ _ _ lookup valid o p)
    (fun y s' => s' = next _ _ _ s /\
       (ok (fst y) = true -> lookup p (chip s (negb (ro s))) = Some (snd y) /\
                             valid true p (chip s (negb (ro s))) = true))
    (fun _ => False) s.
Proof. intros p s. unfold validate_rw. apply wp_bind, wp_get, check_flash_spec. Qed.

Lemma validate_ro_spec : forall p good full s,
  (full = true -> good = None) ->
  wp (validate_ro _ _ _ lookup valid same o p good full)
    (fun y s' => s' = next _ _ _ s /\
       (ok (fst y) = true -> lookup p (chip s (ro s)) = Some (snd y) /\
          ((exists g, good = Some g /\ same p g (chip s (ro s)) = true) \/
           exists f, valid f p (chip s (ro s)) = true)))
    (fun _ => False) s.
Proof.
  intros p good full s Hf. unfold validate_ro. apply wp_bind, wp_get.
  assert (K : wp (check_flash P C Img lookup valid o full p (ro s))
    (fun y s' => s' = next _ _ _ s /\
       (ok (fst y) = true -> lookup p (chip s (ro s)) = Some (snd y) /\
          ((exists g, good = Some g /\ same p g (chip s (ro s)) = true) \/
           exists f, valid f p (chip s (ro s)) = true)))
    (fun _ => False) s).
  { eapply wp_mono; [apply check_flash_spec| |contradiction]. intros y s' [A B]. split; [exact A|].
    intro E. destruct (B E) as [B1 B2]. eauto. }
  destruct good as [g|]; [|exact K]. destruct full; [exact K|].
  eapply wp_mono; [apply check_pfm_spec| |contradiction]. intros y s' [A B]. split; [exact A|].
  intro E. destruct (B E) as [B1 [B2|B2]]; eauto.
Qed.

Lemma validate_flash_spec : forall p active is_pending is_bypass skip_rw skip_ro skip_cfg s,
  U p -> preval s = PNone ->
  (is_pending = false -> act s = Some p) -> (is_pending = true -> pend s = Some p) ->
  (is_bypass = false -> ovr s = None /\ f_mode s = Dual /\ byp s = false) ->
  (is_bypass = false -> skip_cfg = true -> G s) ->
  (forall g, active = Some g -> is_bypass = false /\ act s = Some g /\ G s) ->
  wp (validate_flash _ _ _ lookup valid same o p active is_pending is_bypass skip_rw skip_ro skip_cfg false)
    (after is_bypass s) (unheld s) s.
Proof.
  intros p active is_pending is_bypass skip_rw skip_ro skip_cfg s HU Hpre Hact Hpend Hnb Hcfg Hgood.
  unfold validate_flash. apply wp_bind, wp_get, wp_bind, wp_get, wp_bind.
  set (checked := negb skip_rw && negb is_bypass && dirty s).
  cbv zeta.
  assert (Hrefl : after is_bypass s SRwSkipped s).
  { unfold after. splits; auto. cbn [ok]. apply still_refl. }
  apply wp_mono with
    (Q := fun x s1 => after is_bypass s (fst x) s1 /\ (ok (fst x) = true -> snd x = false))
    (S := unheld s); [| |auto].
  { destruct checked eqn:Ec.
    2:{ apply wp_ret. cbn [fst]. split; [exact Hrefl|discriminate]. }
    assert (Hb : is_bypass = false).
    { subst checked. destruct is_bypass; [|reflexivity]. rewrite andb_false_r in Ec. discriminate. }
    destruct (Hnb Hb) as (Hovr & Hdual & Hbyp).
    cbn [negb]. apply wp_bind, wp_bind, wp_set.
    eapply wp_mono; [apply validate_rw_spec| |contradiction].
    intros y s1 [E Hy]. subst s1. change (ro (w_preval P C Img PNone s)) with (ro s) in Hy.
    fields. destruct (ok (fst y)) eqn:Ey.
    - destruct (Hy eq_refl) as [Hl Hv].
      apply wp_bind. eapply wp_mono; [apply swap_flash_spec| |].
      + intros u s2 (A1 & A2 & A3 & A4 & A5 & A6 & A7 & A8 & A9 & A10 & A11 & A12 & A13 & A14 & [k A15]).
        apply wp_ret. cbn [fst snd ok]. split; [|reflexivity].
        change (ro (next P C Img (w_preval P C Img PNone s))) with (ro s) in *. fields.
        assert (Er : ro s2 = negb (ro s)).
        { unfold ro at 1. rewrite A6, Hovr. exact A5. }
        unfold after, G. cbn [ok]. splits; auto; try congruence.
        rewrite A4, A13, A15. eapply H_valid; eauto.
        intro Ha. eapply activated_act; eauto.
      + intros s2 [A B]. split; [exact A|exact B].
    - assert (Hst : still s (next P C Img (w_preval P C Img PNone s))).
      { apply still_next_of, still_preval. }
      apply wp_bind. rewrite orb_false_r.
      apply wp_mono with (Q := fun _ s2 => still s s2) (S := fun _ => False); [| |contradiction].
      + destruct (skip_ro && negb is_pending).
        * destruct (if is_pending then active else Some p) as [q|].
          -- apply wp_bind. eapply wp_mono; [apply restore_with_pfm_spec| |contradiction].
             intros u s2 H2. apply wp_ret. eapply still_trans; eauto.
          -- apply wp_set. eapply still_trans; [exact Hst|apply still_preval].
        * apply wp_ret. exact Hst.
      + intros u s2 H2. apply wp_bind.
        apply wp_mono with (Q := fun _ s3 => still s s3) (S := fun _ => False); [| |contradiction].
        * match goal with |- wp (if ?b then _ else _) _ _ _ => destruct b end.
          -- apply wp_set. eapply still_trans; [exact H2|apply still_pfm_dirty].
          -- apply wp_ret. exact H2.
        * intros u' s3 H3. apply wp_ret. cbn [fst snd]. rewrite Ey. split; [|discriminate].
          unfold after. rewrite Ey. pose proof H3 as H3'. destruct H3. splits; auto. }
  intros x s1 [Hx Hd]. apply wp_bind.
  apply wp_mono with (Q := fun r s2 => after is_bypass s r s2) (S := unheld s); [| |auto].
  2:{ intros r s2 Hr. cbn beta. apply wp_bind.
      match goal with |- wp (if ?b then _ else _) _ _ _ => destruct b eqn:Eb end.
      2:{ apply wp_ret, wp_ret. exact Hr. }
      assert (K : forall s3, still s2 s3 -> after is_bypass s r s3).
      { intros s3 H3. unfold after in *. destruct Hr as (R1 & R2 & R3 & R4 & R5 & R6).
        pose proof H3 as H3'. destruct H3.
        splits; try congruence; auto.
        destruct (ok r).
        - destruct R6 as (R6 & R7 & R8). split; [eapply still_G; eauto|]. split; congruence.
        - eapply still_trans; eauto. }
      apply wp_bind. apply wp_call; cbn [ok].
      - apply wp_set, wp_ret, K. eapply still_trans; [|apply still_dirty].
        apply still_next_of, still_fdirty.
      - intros r' Hr'. rewrite Hr'. split; apply wp_ret, wp_ret, K.
        + apply still_next_of, still_fdirty.
        + apply still_next. }
  match goal with |- wp (if ?b then _ else _) _ _ _ => destruct b eqn:Eb end.
  2:{ apply wp_ret. exact Hx. }
  assert (Ex : ok (fst x) = false) by (destruct (ok (fst x)); [destruct skip_ro; discriminate|reflexivity]).
  unfold after in Hx. rewrite Ex in Hx. destruct Hx as (X1 & X2 & X3 & X4 & X5 & X6).
  pose proof (still_ro _ _ _ _ _ X6) as Er.
  assert (HG1 : is_bypass = false -> skip_cfg = true -> G s1).
  { intros A B. eapply still_G; [exact X6|auto]. }
  apply wp_bind. eapply wp_mono; [apply validate_ro_spec| |contradiction].
  { intro Hf. destruct active as [g|]; [|reflexivity]. destruct (Hgood g eq_refl) as [A _]. congruence. }
  intros y s2 [E Hy]. subst s2.
  assert (X6n : still s (next P C Img s1)) by (apply still_next_of; exact X6).
  destruct (ok (fst y)) eqn:Ey.
  2:{ apply wp_bind.
      apply wp_mono with (Q := fun _ s3 => still s s3) (S := fun _ => False); [| |contradiction].
      - match goal with |- wp (if ?b then _ else _) _ _ _ => destruct b end.
        + apply wp_set. eapply still_trans; [exact X6n|apply still_pfm_dirty].
        + apply wp_ret. exact X6n.
      - intros u s3 H3. apply wp_ret. unfold after. rewrite Ey. pose proof H3 as H3'. destruct H3.
        splits; auto. }
  destruct (Hy eq_refl) as [Hl Hv].
  (* what the regions and the content give, whatever PFM is active at the end *)
  assert (HT : forall a n, (act_ok o = true -> a = Some p) -> TT a (chip s1 (ro s1)) (firstn n (snd y))).
  { intros a n Ha. destruct Hv as [[g [Hg Hs]]|[f Hv]].
    - destruct (Hgood g Hg) as (B1 & B2 & B3).
      pose proof (still_G _ _ X6 B3) as (D1 & D2 & D3).
      assert (Eact : act s1 = Some g) by (destruct X6; congruence).
      rewrite D2, Eact in D3. eapply H_same; eauto.
    - eapply H_valid; eauto. }
  apply wp_bind.
  set (cs := ro s1) in *.
  (* the chip and the chip select are settled, the PFM and the regions not yet *)
  apply wp_mono with
    (Q := fun _ s3 => f_on s3 = f_on s /\ acc s3 = acc s /\ unsup s3 = unsup s /\ preval s3 = PNone /\
            rec s3 = rec s /\ f_mode s3 = Dual /\ ro s3 = cs /\ (is_bypass = true -> f_ro s3 = cs) /\
            (is_bypass = false -> f_ro s3 = f_ro s1) /\
            chip s3 cs = chip s1 cs /\ byp s3 = false /\ ovr s3 = ovr s /\
            act s3 = act s /\ pend s3 = pend s)
    (S := unheld s).
  { destruct is_bypass.
    - eapply wp_mono; [apply init_protection_spec| |].
      + intros u s3 (A1 & A2 & A3 & A4 & A5 & A6 & A7 & A8 & A9 & A10 & A11 & A12 & A13 & A14 & A15).
        change (ro (next P C Img s1)) with cs in *. fields.
        destruct X6. splits; try congruence; auto.
        unfold ro. rewrite A3, A4. unfold cs, ro. reflexivity.
      + intros s3 [A B]. fields. split; congruence.
    - destruct (Hnb eq_refl) as (Hovr & Hdual & Hbyp).
      assert (K : forall s3, still (next P C Img s1) s3 ->
        f_on s3 = f_on s /\ acc s3 = acc s /\ unsup s3 = unsup s /\ preval s3 = PNone /\
            rec s3 = rec s /\ f_mode s3 = Dual /\ ro s3 = cs /\ (false = true -> f_ro s3 = cs) /\
            (false = false -> f_ro s3 = f_ro s1) /\
            chip s3 cs = chip s1 cs /\ byp s3 = false /\ ovr s3 = ovr s /\
            act s3 = act s /\ pend s3 = pend s).
      { intros s3 H3. pose proof (still_ro _ _ _ _ _ H3) as E3.
        change (ro (next P C Img s1)) with cs in E3. destruct H3, X6.
        change (ro (next P C Img s1)) with cs in *. fields.
        splits; try congruence; auto. }
      match goal with |- wp (if ?b then _ else _) _ _ _ => destruct b end.
      + apply wp_bind. eapply wp_mono; [apply restore_with_list_spec| |contradiction].
        intros u s3 H3. apply wp_ret, K. exact H3.
      + apply wp_ret, K, still_refl. }
  { intros u s3 (A1 & A2 & A3 & A4 & A5 & A6 & A7 & A8 & A9 & A10 & A11 & A12 & A13 & A14).
    apply wp_bind.
    apply wp_mono with
      (Q := fun _ s4 => f_on s4 = f_on s /\ acc s4 = acc s /\ unsup s4 = unsup s /\ preval s4 = PNone /\
            rec s4 = rec s /\ f_mode s4 = Dual /\ ro s4 = cs /\ f_ro s4 = f_ro s3 /\
            chip s4 cs = chip s1 cs /\ byp s4 = false /\ ovr s4 = ovr s /\
            (act_ok o = true -> act s4 = Some p))
      (S := fun _ => False); [| |contradiction].
    { destruct is_pending.
      - unfold activate_pending. apply wp_set. rewrite A14, (Hpend eq_refl).
        destruct (act_ok o); splits; auto; discriminate.
      - apply wp_ret. splits; auto. intros _. rewrite A13. auto. }
    intros u' s4 (B1 & B2 & B3 & B4 & B5 & B6 & B7 & B8 & B9 & B10 & B11 & B12).
    apply wp_bind.
    apply wp_mono with
      (Q := fun _ s5 => f_on s5 = f_on s /\ acc s5 = acc s /\ unsup s5 = unsup s /\ preval s5 = PNone /\
            rec s5 = rec s /\ f_mode s5 = Dual /\ ro s5 = cs /\ f_ro s5 = cs /\
            chip s5 cs = chip s1 cs /\ byp s5 = false /\ ovr s5 = ovr s /\
            (act_ok o = true -> act s5 = Some p))
      (S := unheld s).
    { destruct is_bypass; cbn [negb andb].
      - apply wp_ret. splits; auto. rewrite B8. auto.
      - destruct skip_cfg eqn:Ecfg; cbn [negb andb].
        + apply wp_ret. splits; auto. rewrite B8, (A9 eq_refl).
          destruct (HG1 eq_refl eq_refl) as (_ & D & _). exact D.
        + eapply wp_mono; [apply config_flash_spec| |].
          * intros u'' s5 E5. rewrite E5. fields. splits; auto.
          * intros s5 [D1 D2]. split; congruence. }
    { intros u'' s5 (D1 & D2 & D3 & D4 & D5 & D6 & D7 & D8 & D9 & D10 & D11 & D12).
      apply wp_bind. eapply wp_mono; [apply config_rw_spec| |].
      - intros u3 s6 [F [k Fk]]. apply wp_ret. destruct F. unfold after, G. cbn [ok].
        assert (E6 : ro s6 = cs) by (unfold ro; rewrite b_nv, b_ovr; exact D7).
        splits; try congruence.
        rewrite b_chip, b_ro, D8, D9, b_act, Fk. apply HT. exact D12.
      - intros s6 F. destruct F. split; congruence. }
    { intros s5 [D1 D2]. split; congruence. } }
  { intros s3 H3. exact H3. }
Qed.

End Flows.
