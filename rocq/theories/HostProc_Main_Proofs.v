(** Power-on and the other entry points. *)
From Coq Require Import List NArith Bool Lia Arith.
From Verif Require Import HostFw_Model HostProc_Model HostProc_Spec HostProc_Proofs HostProc_Flow_Proofs.
Import ListNotations.

Section Main.

Variables (P C Img : Type).
Variable lookup : P -> C -> option (list region).
Variable valid : bool -> P -> C -> bool.
Variable same : P -> P -> C -> bool.
Variable empty : P -> bool.
Variable applied : Img -> C.
Variable c : config.
Variable o : oracle C.

Notation st := (st P C Img).
Notation M := (M P C Img).
Notation wp := (wp P C Img).
Notation still := (still P C Img).
Notation unheld := (unheld P C Img).
Notation but_regions := (but_regions P C Img).

Ltac splits := repeat match goal with |- _ /\ _ => split end.

Ltac fields :=
  cbn [chip f_on f_mode f_ro f_rw f_dirty acc nv_ro ovr dirty events pfm_dirty preval byp unsup act
       pend rec tick next w_chip w_on w_mode w_ro w_rw w_fdirty w_acc w_nv w_ovr w_dirty w_events
       w_pfm_dirty w_preval w_byp w_unsup w_pfms w_rec] in *.

(** Everything but who has the flash. *)
Record but_access (s s' : st) : Prop := mkButAccess {
  d_chip : chip s' = chip s; d_mode : f_mode s' = f_mode s; d_ro : f_ro s' = f_ro s;
  d_rw : f_rw s' = f_rw s; d_nv : nv_ro s' = nv_ro s; d_ovr : ovr s' = ovr s; d_byp : byp s' = byp s;
  d_unsup : unsup s' = unsup s; d_act : act s' = act s; d_pend : pend s' = pend s;
  d_rec : rec s' = rec s; d_events : events s' = events s; d_preval : preval s' = preval s;
  d_dirty : dirty s' = dirty s; d_pfm_dirty : pfm_dirty s' = pfm_dirty s }.

Lemma access_refl : forall s, but_access s s.
Proof. intro s. constructor; auto. Qed.

Lemma access_trans : forall s s' s'', but_access s s' -> but_access s' s'' -> but_access s s''.
Proof. intros s s' s'' H K. destruct H, K. constructor; congruence. Qed.

Lemma access_ro : forall s s', but_access s s' -> ro s' = ro s.
Proof. intros s s' H. destruct H. unfold ro. rewrite d_nv0, d_ovr0. reflexivity. Qed.

Definition locked (s : st) : Prop := f_on s = false /\ acc s = false.

Lemma locked_no_access : forall s, locked s -> host_can_access s = false.
Proof. intros s [A B]. unfold host_can_access. rewrite B. reflexivity. Qed.

Lemma unheld_locked : forall s s', locked s -> unheld s s' -> locked s'.
Proof. intros s s' [A B] [D E]. split; congruence. Qed.

Lemma rot_access_spec : forall s,
  wp (rot_access _ _ _ o)
    (fun r s' => but_access s s' /\ (ok r = true -> locked s') /\
       (host_can_access s' = true -> host_can_access s = true))
    (fun _ => False) s.
Proof.
  intro s. unfold rot_access, host_can_access.
  apply wp_andthen, wp_call; cbn [ok].
  2:{ intros r Hr. rewrite Hr. split; (split; [constructor; auto|split; [discriminate|]]); fields; auto.
      rewrite andb_false_r. discriminate. }
  apply wp_andthen, wp_call; cbn [ok].
  2:{ intros r Hr. rewrite Hr. split; (split; [constructor; auto|split; [discriminate|]]); fields; auto.
      - rewrite andb_false_r. discriminate.
      - rewrite andb_false_r. discriminate. }
  assert (K : forall r, but_access s (next P C Img (next P C Img (w_acc P C Img false (next P C Img (w_on P C Img false s))))) /\
    (ok r = true -> locked (next P C Img (next P C Img (w_acc P C Img false (next P C Img (w_on P C Img false s)))))) /\
    (acc (next P C Img (next P C Img (w_acc P C Img false (next P C Img (w_on P C Img false s))))) &&
     f_on (next P C Img (next P C Img (w_acc P C Img false (next P C Img (w_on P C Img false s))))) = true ->
     acc s && f_on s = true)).
  { intro r. split; [constructor; auto|]. split; [intros _; split; reflexivity|]. fields. discriminate. }
  apply wp_call; [apply K|]. intros r Hr. split; apply K.
Qed.

Lemma host_access_spec : forall s,
  wp (host_access _ _ _ o)
    (fun _ s' => but_access s s' /\ host_can_access s' = true) (fun s' => but_access s s') s.
Proof.
  intro s. unfold host_access.
  apply wp_retry with (I := but_access s); [|auto|apply access_refl].
  intros s1 H1.
  assert (K : forall v w, but_access s (next P C Img (w_on P C Img v (next P C Img (w_acc P C Img w s1))))).
  { intros v w. eapply access_trans; [exact H1|]. constructor; auto. }
  apply wp_andthen, wp_call; cbn [ok].
  - apply wp_call; cbn [ok].
    + split; [apply K|reflexivity].
    + intros r Hr. rewrite Hr. split; [apply K|].
      eapply access_trans; [exact H1|]. constructor; auto.
  - intros r Hr. rewrite Hr. split; (eapply access_trans; [exact H1|]; constructor; auto).
Qed.

(** The filter set up to let the host at everything. *)
Lemma enable_bypass_spec : forall s,
  wp (enable_bypass _ _ _ c o)
    (fun _ s' => f_on s' = f_on s /\ acc s' = acc s /\ nv_ro s' = nv_ro s /\ ovr s' = ovr s /\
       byp s' = byp s /\ unsup s' = unsup s /\ act s' = act s /\ pend s' = pend s /\ rec s' = rec s /\
       preval s' = preval s /\ chip s' = chip s)
    (fun _ => False) s.
Proof.
  intro s. unfold enable_bypass. apply wp_bind, wp_get. destruct (full_bypass c).
  - apply wp_call; [fields; splits; reflexivity|]. intros r Hr. split; fields; splits; reflexivity.
  - apply wp_andthen. eapply wp_mono; [apply set_regions_spec| |contradiction].
    intros r s1 [B _]. destruct B. cbn beta. destruct (ok r); [|splits; assumption].
    apply wp_call; [fields; splits; assumption|]. intros r' Hr. split; fields; splits; assumption.
Qed.

Lemma config_bypass_spec : forall s,
  wp (config_bypass _ _ _ c o)
    (fun _ s' => f_on s' = f_on s /\ acc s' = acc s /\ nv_ro s' = nv_ro s /\ ovr s' = ovr s /\
       byp s' = true /\ unsup s' = unsup s /\ act s' = act s /\ pend s' = pend s /\ rec s' = rec s /\
       preval s' = preval s /\ chip s' = chip s)
    (unheld s) s.
Proof.
  intro s. unfold config_bypass. apply wp_bind.
  apply wp_retry with (I := fun s' => f_on s' = f_on s /\ acc s' = acc s /\ nv_ro s' = nv_ro s /\
       ovr s' = ovr s /\ unsup s' = unsup s /\ act s' = act s /\ pend s' = pend s /\ rec s' = rec s /\
       preval s' = preval s /\ chip s' = chip s).
  - intros s1 (A1 & A2 & A3 & A4 & A5 & A6 & A7 & A8 & A9 & A10).
    eapply wp_mono; [apply enable_bypass_spec| |contradiction].
    intros r s2 (B1 & B2 & B3 & B4 & B5 & B6 & B7 & B8 & B9 & B10 & B11). cbn beta.
    destruct (ok r).
    + apply wp_set. fields. splits; congruence.
    + splits; congruence.
  - intros s1 (A1 & A2 & _). split; assumption.
  - splits; reflexivity.
Qed.

(** Looking for an empty pending PFM. *)
Record but_pfms (s s' : st) : Prop := mkButPfms {
  e_chip : chip s' = chip s; e_on : f_on s' = f_on s; e_acc : acc s' = acc s;
  e_mode : f_mode s' = f_mode s; e_ro : f_ro s' = f_ro s;
  e_rw : f_rw s' = f_rw s; e_nv : nv_ro s' = nv_ro s; e_ovr : ovr s' = ovr s; e_byp : byp s' = byp s;
  e_unsup : unsup s' = unsup s; e_act : act s' = act s \/ act s' = None;
  e_rec : rec s' = rec s; e_preval : preval s' = preval s;
  e_dirty : dirty s' = dirty s; e_pfm_dirty : pfm_dirty s' = pfm_dirty s; e_events : events s' = events s }.

Lemma check_force_spec : forall s a q,
  act s = a -> pend s = Some q ->
  wp (check_force_bypass _ _ _ empty o a q)
    (fun x s' => let '(r, e, a', q') := x in
       but_pfms s s' /\
       (ok r = false -> empty q = true) /\
       (ok r = true -> act s' = a' /\ (a' = a \/ (a' = None /\ empty q = true)) /\
          (q' = None \/ (q' = Some q /\ pend s' = Some q))))
    (fun _ => False) s.
Proof.
  intros s a q Ha Hq. unfold check_force_bypass.
  apply wp_bind, wp_call; cbn [ok negb].
  2:{ intros r Hr. rewrite Hr. cbn [negb]. split; apply wp_ret; (split; [constructor; auto|]);
      (split; [discriminate|]); intros _; splits; auto. }
  destruct (empty q) eqn:Ee.
  2:{ apply wp_ret. split; [constructor; auto|]. split; [discriminate|]. intros _. splits; auto. }
  apply wp_bind. unfold clear_all. apply wp_andthen, wp_call; cbn [ok].
  2:{ intros r Hr. rewrite Hr. split; apply wp_ret; (split; [constructor; auto|]); auto;
      (split; [reflexivity|]); rewrite Hr; discriminate. }
  apply wp_call; cbn [ok].
  - apply wp_ret. split; [constructor; auto|]. split; [discriminate|]. intros _. splits; auto.
  - intros r Hr. rewrite Hr. split; apply wp_ret; (split; [constructor; auto|]);
      (split; [reflexivity|]); rewrite Hr; discriminate.
Qed.

(** ** What is claimed of the boot chip *)

Variable U : P -> Prop.
Variable TT : option P -> C -> list region -> Prop.
Hypothesis H_valid : forall full p v l n a,
  U p -> lookup p v = Some l -> valid full p v = true -> (act_ok o = true -> a = Some p) ->
  TT a v (firstn n l).
Hypothesis H_same : forall p g v l l0 n a,
  U p -> TT (Some g) v l0 -> same p g v = true -> lookup p v = Some l ->
  (act_ok o = true -> a = Some p) -> TT a v (firstn n l).
Hypothesis H_none : forall a v l, TT a v l -> TT None v l.

Notation G := (G P C Img TT).

Definition Inv0 (s : st) : Prop := unsup s = false /\ preval s = PNone /\ (byp s = true \/ G s).
Definition Inv (s : st) : Prop :=
  unsup s = false /\ preval s = PNone /\ (byp s = true \/ (G s /\ ovr s = None)).

Lemma Inv_Inv0 : forall s, Inv s -> Inv0 s.
Proof. intros s (A & B & [D|[D _]]); unfold Inv0; auto. Qed.

Lemma access_G : forall s s', but_access s s' -> G s -> G s'.
Proof.
  intros s s' H (A & B & D). pose proof (access_ro _ _ H) as E. destruct H.
  unfold HostProc_Flow_Proofs.G. rewrite E, d_chip0, d_ro0, d_rw0, d_act0. splits; congruence.
Qed.

Lemma access_Inv0 : forall s s', but_access s s' -> Inv0 s -> Inv0 s'.
Proof.
  intros s s' H (A & B & D). pose proof H as H'. destruct H'. unfold Inv0. splits; try congruence.
  destruct D as [D|D]; [left; congruence|right; eapply access_G; eauto].
Qed.

Lemma access_Inv : forall s s', but_access s s' -> Inv s -> Inv s'.
Proof.
  intros s s' H (A & B & D). pose proof H as H'. destruct H'. unfold Inv. splits; try congruence.
  destruct D as [D|[D D2]]; [left; congruence|right; split; [eapply access_G; eauto|congruence]].
Qed.

Lemma still_Inv : forall s s', still s s' -> Inv s -> Inv s'.
Proof.
  intros s s' H (A & B & D). pose proof H as H'. destruct H'. unfold Inv. splits; try congruence; auto.
  destruct D as [D|[D D2]]; [left; congruence|right; split; [eapply still_G; eauto|congruence]].
Qed.

Lemma pfms_G : forall s s', but_pfms s s' -> G s -> G s'.
Proof.
  intros s s' H (A & B & D). destruct H. unfold HostProc_Flow_Proofs.G, ro in *.
  rewrite e_nv0, e_ovr0, e_chip0, e_ro0, e_rw0. splits; try congruence.
  destruct e_act0 as [E|E]; rewrite E; eauto.
Qed.

Lemma pfms_Inv : forall s s', but_pfms s s' -> Inv s -> Inv s'.
Proof.
  intros s s' H (A & B & D). pose proof H as H'. destruct H'. unfold Inv. splits; try congruence; auto.
  destruct D as [D|[D D2]]; [left; congruence|right; split; [eapply pfms_G; eauto|congruence]].
Qed.

(** ** Power-on *)

Lemma initial_rot_access_spec : forall s,
  wp (initial_rot_access _ _ _ o)
    (fun r s' => nv_ro s' = nv_ro s /\ ovr s' = ovr s /\ byp s' = byp s /\ f_mode s' = f_mode s /\
       act s' = act s /\ pend s' = pend s /\ rec s' = rec s /\ preval s' = preval s /\
       unsup s' = negb (ok r) /\ (ok r = true -> locked s'))
    (fun _ => False) s.
Proof.
  intro s. unfold initial_rot_access. apply wp_bind.
  apply wp_attempts with (I := but_access s); [|apply access_refl].
  intros s1 H1. eapply wp_mono; [apply rot_access_spec| |contradiction].
  intros r s2 (H2 & H3 & _).
  assert (H4 : but_access s s2) by (eapply access_trans; eauto).
  split; [|intros _; exact H4].
  destruct (ok r) eqn:Er; cbn [negb].
  2:{ apply wp_bind, wp_set, wp_ret. destruct H4. fields. rewrite Er. cbn [negb].
      splits; auto; try congruence. }
  specialize (H3 eq_refl).
  apply wp_bind.
  apply wp_attempts with (I := fun s3 => but_access s s3 /\ locked s3); [|auto].
  intros s3 [H5 H6].
  assert (K : forall r' s4, but_access s s4 -> locked s4 ->
     wp (if negb (ok r') then bind P C Img (set P C Img (w_unsup P C Img true)) (fun _ => ret P C Img r')
         else bind P C Img (set P C Img (w_unsup P C Img false)) (fun _ => ret P C Img SOk))
       (fun r s' => nv_ro s' = nv_ro s /\ ovr s' = ovr s /\ byp s' = byp s /\ f_mode s' = f_mode s /\
         act s' = act s /\ pend s' = pend s /\ rec s' = rec s /\ preval s' = preval s /\
         unsup s' = negb (ok r) /\ (ok r = true -> locked s')) (fun _ => False) s4).
  { intros r' s4 A B. destruct A. destruct (ok r') eqn:Er'; cbn [negb]; apply wp_bind, wp_set, wp_ret;
      fields; [cbn [ok negb]|rewrite Er'; cbn [negb]]; splits; auto; try congruence. }
  apply wp_call.
  - split; [|intros _; split; [|exact H6]].
    + apply K; [eapply access_trans; [exact H5|constructor; auto]|exact H6].
    + eapply access_trans; [exact H5|constructor; auto].
  - intros r' Hr'. split.
    + split; [|intros _; split; [|exact H6]].
      * apply K; [eapply access_trans; [exact H5|constructor; auto]|exact H6].
      * eapply access_trans; [exact H5|constructor; auto].
    + split; [|intros _; split; [|exact H6]].
      * apply K; [eapply access_trans; [exact H5|constructor; auto]|exact H6].
      * eapply access_trans; [exact H5|constructor; auto].
Qed.

Lemma power_on_flows_spec : forall a q e s,
  locked s -> preval s = PNone -> ovr s = None -> f_mode s = Dual -> byp s = false -> unsup s = false ->
  act s = a -> (q = None \/ q = pend s) -> (forall p, a = Some p -> U p) -> (forall p, q = Some p -> U p) ->
  wp (power_on_flows _ _ _ lookup valid same c o a q e)
    (fun y s' => locked s' /\ unsup s' = false /\
       (snd y = true -> ok (fst y) = true) /\
       (snd y = true -> Inv s') /\ (byp s' = true -> a = None) /\
       (snd y = false -> ok (fst y) = false))
    locked s.
Proof.
  intros a q e s HL Hpre Hovr Hmode Hbyp Huns Ha Hq Ua Uq.
  assert (Klock : forall s', unheld s s' -> locked s') by (intros; eapply unheld_locked; eauto).
  destruct a as [p|]; cbn [power_on_flows].
  - apply wp_bind.
    apply wp_mono with (S := locked) (Q := fun r s1 =>
      locked s1 /\ unsup s1 = false /\
      ((q <> None /\ ok r = true /\ Inv s1 /\ byp s1 = false) \/
       ((q = None \/ ok r = false) /\ preval s1 = PNone /\ ovr s1 = None /\ f_mode s1 = Dual /\
        byp s1 = false /\ act s1 = Some p))); [| |auto].
    + destruct q as [q'|].
      * destruct Hq as [Hq|Hq]; [discriminate|].
        eapply wp_mono; [eapply validate_flash_spec with (U := U) (TT := TT); eauto| |exact Klock].
        -- discriminate.
        -- discriminate.
        -- discriminate.
        -- intros r s1 (A1 & A2 & A3 & A4 & A5 & A6). cbn beta.
           split; [apply Klock; split; assumption|]. split; [congruence|].
           destruct (ok r) eqn:Er.
           ++ left. destruct A6 as (A6 & A7 & A8). splits; [discriminate|reflexivity| |exact A7].
              unfold Inv. splits; try congruence. right. split; [exact A6|congruence].
           ++ right. destruct A6. splits; auto; congruence.
      * apply wp_bind.
        apply wp_mono with (Q := fun _ s1 => still s s1) (S := fun _ => False); [| |contradiction].
        -- destruct (ok e); [apply wp_set, still_pfm_dirty|apply wp_ret, still_refl].
        -- intros u s1 H1. apply wp_ret.
           split; [apply Klock; split; apply H1|]. destruct H1.
           split; [congruence|]. right. splits; auto; congruence.
    + intros r s1 (H1 & H2 & H3). cbn beta.
      set (again := match q with Some _ => negb (ok r) | None => true end).
      destruct again eqn:Eg.
      * assert (H4 : preval s1 = PNone /\ ovr s1 = None /\ f_mode s1 = Dual /\ byp s1 = false /\ act s1 = Some p).
        { destruct H3 as [(B1 & B2 & _)|(B1 & B2)]; [|exact B2].
          subst again. destruct q; [rewrite B2 in Eg; discriminate|congruence]. }
        destruct H4 as (B1 & B2 & B3 & B4 & B5).
        apply wp_bind.
        eapply wp_mono; [eapply validate_flash_spec with (U := U) (TT := TT) (s := s1); eauto| |].
        -- discriminate.
        -- discriminate.
        -- discriminate.
        -- intros r' s2 (A1 & A2 & A3 & A4 & A5 & A6). apply wp_ret. cbn [fst snd].
           split; [eapply unheld_locked; [exact H1|split; assumption]|].
           split; [congruence|]. destruct (ok r') eqn:Er'; splits; auto; try discriminate.
           2:{ destruct A6 as (A6 & A7 & A8). congruence. }
           2:{ destruct A6. congruence. }
           intros _. destruct A6 as (A6 & A7 & A8).
           unfold Inv. splits; try congruence. right. split; [exact A6|congruence].
        -- intros s2 H6. eapply unheld_locked; eauto.
      * apply wp_ret. cbn [fst snd].
        assert (B : q <> None /\ ok r = true /\ Inv s1 /\ byp s1 = false).
        { destruct H3 as [B|(B1 & B2)]; [exact B|]. exfalso. subst again.
          destruct B1 as [B1|B1]; [rewrite B1 in Eg; discriminate|].
          destruct q; [rewrite B1 in Eg|]; discriminate. }
        destruct B as (B1 & B2 & B3 & B4). splits; auto; try discriminate. congruence.
  - destruct q as [q'|].
    + destruct Hq as [Hq|Hq]; [discriminate|].
      apply wp_bind.
      eapply wp_mono; [eapply validate_flash_spec with (U := U) (TT := TT); eauto| |exact Klock].
      * discriminate.
      * discriminate.
      * discriminate.
      * intros r s1 (A1 & A2 & A3 & A4 & A5 & A6). cbn beta.
        assert (L1 : locked s1) by (apply Klock; split; assumption).
        destruct (ok r) eqn:Er.
        -- apply wp_ret. cbn [fst snd ok]. destruct A6 as (A6 & A7 & A8).
           splits; auto; try congruence; try discriminate. intros _.
           unfold Inv. splits; try congruence. right. split; [exact A6|congruence].
        -- destruct (negb (validation_failure r)).
           ++ apply wp_ret. cbn [fst snd]. splits; auto; try congruence; discriminate.
           ++ apply wp_bind. eapply wp_mono; [apply config_bypass_spec| |].
              ** intros u s2 (B1 & B2 & B3 & B4 & B5 & B6 & B7 & B8 & B9 & B10 & B11).
                 apply wp_ret. cbn [fst snd ok]. destruct A6.
                 assert (L2 : locked s2) by (eapply unheld_locked; [exact L1|split; assumption]).
                 splits; auto; try congruence; try discriminate. intros _.
                 unfold Inv. splits; try congruence. left. exact B5.
              ** intros s2 H2. eapply unheld_locked; eauto.
    + apply wp_bind.
      apply wp_mono with (Q := fun _ s1 => still s s1) (S := fun _ => False); [| |contradiction].
      { apply wp_call; [apply still_next_of, still_fdirty|]. intros r Hr. split.
        - apply still_next_of, still_fdirty.
        - apply still_next. }
      intros u s1 H1. apply wp_bind, wp_set, wp_bind, wp_set.
      assert (H2 : still s (w_pfm_dirty P C Img false (w_dirty P C Img false s1))).
      { eapply still_trans; [exact H1|]. eapply still_trans; [apply still_dirty|apply still_pfm_dirty]. }
      set (s2 := w_pfm_dirty P C Img false (w_dirty P C Img false s1)) in *.
      assert (L2 : locked s2) by (apply Klock; split; apply H2).
      apply wp_bind. eapply wp_mono; [apply config_bypass_spec| |].
      * intros u' s3 (B1 & B2 & B3 & B4 & B5 & B6 & B7 & B8 & B9 & B10 & B11).
        apply wp_ret. cbn [fst snd ok].
        assert (L3 : locked s3) by (eapply unheld_locked; [exact L2|split; assumption]).
        destruct H2. splits; auto; try congruence; try discriminate. intros _.
        unfold Inv. splits; [congruence| |left; exact B5]. rewrite B10. auto.
      * intros s3 H3. eapply unheld_locked; eauto.
Qed.

(** After power-on the host has the flash only if the flash is not supported, the PFMs could not be
    removed, or the claim holds. *)
Lemma power_on_spec : forall s,
  f_mode s = Dual -> preval s = PNone -> (forall p, act s = Some p -> U p) -> (forall p, pend s = Some p -> U p) ->
  wp (power_on _ _ _ lookup valid same empty c o)
    (fun r s' => (r = SOk -> Inv s') /\
       (host_can_access s' = true -> r = SOk \/ unsup s' = true \/ (exists q, pend s = Some q /\ empty q = true)) /\
       (byp s' = true -> act s = None \/ exists q, pend s = Some q /\ empty q = true))
    (fun s' => (host_can_access s' = true ->
                Inv s' \/ unsup s' = true \/ exists q, pend s = Some q /\ empty q = true)) s.
Proof.
  intros s Hmode Hpre Ua Uq. unfold power_on.
  apply wp_bind, wp_set, wp_bind, wp_set, wp_bind, wp_set, wp_bind.
  eapply wp_mono; [apply initial_rot_access_spec| |contradiction].
  intros r s1 (A1 & A2 & A3 & A4 & A5 & A6 & A7 & A8 & A9 & A10). fields.
  destruct (ok r) eqn:Er; cbn [negb] in *.
  2:{ apply wp_bind. eapply wp_mono; [apply host_access_spec| |].
      - intros u s2 [B B2]. apply wp_ret. destruct B. splits.
        + intro E. subst r. discriminate.
        + intros _. right. left. congruence.
        + congruence.
      - intros s2 B _. destruct B. right. left. congruence. }
  specialize (A10 eq_refl).
  apply wp_bind, wp_get, wp_bind, wp_get, wp_bind.
  apply wp_mono with (S := fun _ => False) (Q := fun x s2 => let '(r, e, a', q') := x in
       but_pfms s1 s2 /\ (ok r = false -> exists q, pend s = Some q /\ empty q = true) /\
       (ok r = true -> act s2 = a' /\ (q' = None \/ q' = pend s2) /\
          (a' = act s \/ exists q, pend s = Some q /\ empty q = true) /\
          (forall p, a' = Some p -> U p) /\ (forall p, q' = Some p -> U p))); [| |contradiction].
  { rewrite A5, A6. destruct (pend s) as [q|] eqn:Eq.
    - eapply wp_mono; [apply (check_force_spec s1 (act s) q); congruence| |contradiction].
      intros [[[r' e] a'] q'] s2 (B1 & B2 & B3). split; [exact B1|]. split; [eauto|].
      intro E. destruct (B3 E) as (D1 & D2 & D3). splits; auto.
      + destruct D3 as [D3|[D3 D4]]; [auto|right; congruence].
      + destruct D2 as [D2|[D2 D4]]; [left; congruence|right; eauto].
      + intros p Hp. destruct D2 as [D2|[D2 D4]]; [apply Ua|]; congruence.
      + intros p Hp. destruct D3 as [D3|[D3 D4]]; [congruence|apply Uq; congruence].
    - apply wp_ret. split; [constructor; auto|]. split; [discriminate|]. intros _.
      splits; auto. }
  intros [[[r' e] a'] q'] s2 (B1 & B2 & B3). pose proof B1 as B1'. destruct B1'.
  destruct (ok r') eqn:Er'; cbn [negb].
  2:{ apply wp_bind. eapply wp_mono; [apply host_access_spec| |].
      - intros u s3 [D D2]. apply wp_ret. destruct D. splits.
        + intro E. subst r'. discriminate.
        + auto.
        + intro E. congruence.
      - intros s3 D _. auto. }
  destruct (B3 eq_refl) as (D1 & D2 & D3 & D4 & D5).
  assert (L2 : locked s2) by (destruct A10; split; congruence).
  apply wp_bind. eapply wp_mono.
  - eapply power_on_flows_spec; eauto; congruence.
  - intros y s3 (F1 & F2 & F3 & F4 & F7 & F5). cbn beta. destruct (snd y) eqn:Ey.
    + pose proof (F4 eq_refl) as F6.
      apply wp_bind. eapply wp_mono; [apply host_access_spec| |].
      * intros u s4 [K K2]. apply wp_ret. splits.
        -- intros _. eapply access_Inv; eauto.
        -- intros _. left. specialize (F3 eq_refl). destruct (fst y); try discriminate. reflexivity.
        -- intro E. destruct K. rewrite d_byp0 in E. specialize (F7 E).
           destruct D3 as [D3|D3]; [left; congruence|right; exact D3].
      * intros s4 K _. left. eapply access_Inv; eauto.
    + apply wp_ret. specialize (F5 eq_refl). splits.
      * intro E. rewrite E in F5. discriminate.
      * rewrite (locked_no_access _ F1). discriminate.
      * intro E. specialize (F7 E). destruct D3 as [D3|D3]; [left; congruence|right; exact D3].
  - intros s3 L3. rewrite (locked_no_access _ L3). discriminate.
Qed.

(** ** Verification at reset and at run time *)

Lemma prepare_spec : forall ignore a q s,
  Inv s ->
  wp (prepare _ _ _ ignore a q)
    (fun h s' => Inv s' /\ f_on s' = f_on s /\ acc s' = acc s /\ byp s' = byp s /\ act s' = act s /\
       pend s' = pend s /\ rec s' = rec s /\ (h = DirtyForce -> byp s = true))
    (fun _ => False) s.
Proof.
  intros ignore a q s HI. unfold prepare.
  apply wp_bind, wp_get, wp_bind, wp_get, wp_bind, wp_get, wp_bind, wp_get.
  destruct (activation_eqb (events s) OnPorOnly || activation_eqb (events s) ignore).
  { apply wp_ret. splits; auto; discriminate. }
  destruct HI as (A & B & D).
  assert (Hro : byp s = false -> ro s = nv_ro s /\ ovr s = None /\ G s).
  { intro E. destruct D as [D|[D D2]]; [congruence|]. unfold ro. rewrite D2. auto. }
  apply wp_bind. destruct (Bool.eqb (ro s) (nv_ro s)) eqn:E; cbn [negb].
  - apply wp_ret, wp_bind, wp_set, wp_ret. fields. splits; auto; try discriminate.
    unfold Inv. fields. splits; auto.
    destruct (byp s) eqn:Eb; [left; reflexivity|right]. destruct (Hro eq_refl) as (F1 & F2 & F3).
    split; [|reflexivity]. destruct F3 as (F3 & F4 & F5). unfold HostProc_Flow_Proofs.G, ro in *. fields.
    rewrite F2 in *. auto.
  - assert (Eb : byp s = true).
    { destruct (byp s); [reflexivity|]. destruct (Hro eq_refl) as (F1 & _). rewrite F1, eqb_reflx in E. discriminate. }
    rewrite Eb. cbn [negb andb].
    apply wp_bind, wp_ret, wp_bind, wp_set, wp_ret, wp_bind, wp_set, wp_ret. fields.
    splits; auto; try congruence. unfold Inv. fields. auto.
Qed.

Lemma finalize_spec : forall s,
  Inv0 s ->
  wp (finalize _ _ _) (fun _ s' => Inv s' /\ byp s' = byp s /\ f_on s' = f_on s /\ acc s' = acc s)
    (fun _ => False) s.
Proof.
  intros s (A & B & D). unfold finalize.
  apply wp_bind, wp_get, wp_bind, wp_get, wp_bind, wp_get, wp_bind, wp_get.
  destruct (byp s) eqn:Eb.
  - destruct (Bool.eqb (ro s) (nv_ro s)).
    + apply wp_set. unfold Inv. fields. splits; auto.
    + apply wp_ret. unfold Inv. splits; auto.
  - destruct D as [D|D]; [discriminate|].
    destruct (ovr s) as [v|] eqn:Eo.
    + apply wp_bind, wp_set, wp_bind, wp_set, wp_set. unfold Inv. fields.
      splits; auto.
      destruct (negb (Bool.eqb (ro s) (nv_ro s))); auto.
    + apply wp_ret. unfold Inv. splits; auto.
Qed.

Lemma update_flows_spec : forall a q e bypass force idn idirty s,
  Inv s -> act s = a -> (q = None \/ q = pend s) -> bypass = byp s ->
  (forall p, a = Some p -> U p) -> (forall p, q = Some p -> U p) ->
  wp (update_flows _ _ _ lookup valid same c o a q e bypass force idn idirty)
    (fun _ s' => unheld s s' /\ Inv0 s' /\ (byp s' = true -> byp s = true \/ a = None))
    (unheld s) s.
Proof.
  intros a q e bypass force idn idirty s HI Ha Hq Hb Ua Uq. unfold update_flows.
  destruct HI as (I1 & I2 & I3).
  apply wp_bind.
  apply wp_mono with (Q := fun f s1 => f = PNone /\ s1 = s) (S := fun _ => False); [| |contradiction].
  { destruct bypass; cbn [negb]; [apply wp_ret|apply wp_get]; auto. }
  intros f s1 [-> ->]. apply wp_bind, wp_set, wp_bind, wp_get.
  assert (H1 : still s (w_preval P C Img PNone s)) by apply still_preval.
  set (s1 := w_preval P C Img PNone s) in *.
  assert (Hpre : preval s1 = PNone) by reflexivity.
  assert (HI1 : Inv s1) by (eapply still_Inv; [exact H1|unfold Inv; auto]).
  assert (E1 : act s1 = a /\ pend s1 = pend s /\ byp s1 = byp s /\ unsup s1 = false /\ unheld s s1).
  { destruct H1. splits; try congruence. split; assumption. }
  destruct E1 as (F1 & F2 & F3 & F4 & F5). clear H1. clearbody s1.
  assert (Kheld : forall s', unheld s1 s' -> unheld s s').
  { intros s' [X Y]. destruct F5. split; congruence. }
  assert (Knb : bypass = false -> ovr s1 = None /\ f_mode s1 = Dual /\ byp s1 = false /\ G s1).
  { intro E. destruct HI1 as (_ & _ & [D|[D D2]]); [congruence|]. splits; auto; try congruence. apply D. }
  assert (Kafter : forall r s', after P C Img TT bypass s1 r s' -> Inv0 s' /\ (byp s' = true -> byp s = true)).
  { intros r s' (A1 & A2 & A3 & A4 & A5 & A6). split.
    - unfold Inv0. splits; try congruence.
      destruct (ok r); [right; apply A6|]. apply Inv_Inv0. eapply still_Inv; eauto.
    - intro E. destruct (ok r); [destruct A6 as (_ & A6 & _)|destruct A6]; congruence. }
  replace (match q with Some _ => negb bypass && is_some a && false | None => false end) with false
    by (destruct q; [rewrite andb_false_r|]; reflexivity).
  rewrite !andb_false_r. cbn [negb].
  apply wp_bind.
  apply wp_mono with (S := unheld s1) (Q := fun r s2 =>
     still s1 s2 \/ (q <> None /\ ok r = true /\ unheld s1 s2 /\ Inv0 s2 /\ byp s2 = false)); [| |exact Kheld].
  { destruct q as [q'|].
    - destruct Hq as [Hq|Hq]; [discriminate|]. cbn [negb andb].
      destruct (ok e) eqn:Ee; cbn [ok negb].
      + eapply wp_mono; [eapply validate_flash_spec with (U := U) (TT := TT); eauto| |auto].
        * discriminate.
        * congruence.
        * intro E. destruct (Knb E) as (N1 & N2 & N3 & N4). auto.
        * intros E _. apply Knb, E.
        * intros g Hg. destruct bypass; [discriminate|]. destruct (Knb eq_refl) as (N1 & N2 & N3 & N4).
          splits; auto; congruence.
        * intros r s2 A. destruct (Kafter _ _ A) as [K1 K2]. destruct A as (A1 & A2 & A3 & A4 & A5 & A6).
          destruct (ok r); [right|left; exact A6]. destruct A6 as (A6 & A7 & A8).
          splits; auto; [discriminate|split; assumption].
      + apply wp_ret. left. apply still_refl.
    - apply wp_bind. destruct (ok e); [apply wp_set|apply wp_ret]; apply wp_ret; left;
        [apply still_pfm_dirty|apply still_refl]. }
  intros r s2 H2. cbn beta.
  assert (K2 : unheld s s2 /\ Inv0 s2 /\ (byp s2 = true -> byp s = true \/ a = None)).
  { destruct H2 as [H2|(_ & _ & H2 & H3 & H4)].
    - splits.
      + apply Kheld. split; apply H2.
      + apply Inv_Inv0. eapply still_Inv; eauto.
      + destruct H2. left. congruence.
    - splits; auto. congruence. }
  assert (Kagain : forall p, a = Some p -> still s1 s2 ->
    wp (validate_flash _ _ _ lookup valid same o p None false bypass idn (negb bypass) true false)
      (fun _ s' => unheld s s' /\ Inv0 s' /\ (byp s' = true -> byp s = true \/ a = None)) (unheld s) s2).
  { intros p Hp S. pose proof S as S'. destruct S'.
    assert (HI2 : Inv s2) by (eapply still_Inv; eauto).
    assert (Kh2 : forall s', unheld s2 s' -> unheld s s').
    { intros s' [X Y]. destruct K2 as [[X' Y'] _]. split; congruence. }
    assert (Knb2 : bypass = false -> ovr s2 = None /\ f_mode s2 = Dual /\ byp s2 = false /\ G s2).
    { intro E. destruct (Knb E) as (N1 & N2 & N3 & N4). splits; try congruence. eapply still_G; eauto. }
    eapply wp_mono; [eapply validate_flash_spec with (U := U) (TT := TT); eauto| |exact Kh2].
    - congruence.
    - discriminate.
    - intro E. destruct (Knb2 E) as (N1 & N2 & N3 & N4). auto.
    - intros E _. apply Knb2, E.
    - discriminate.
    - intros r' s3 A. pose proof A as A'. destruct A as (A1 & A2 & A3 & A4 & A5 & A6). splits.
      + apply Kh2. split; assumption.
      + unfold Inv0. splits; try congruence.
        destruct (ok r'); [right; apply A6|]. apply Inv_Inv0. eapply still_Inv; eauto.
      + intro E. left. destruct (ok r'); [destruct A6 as (_ & A6 & _)|destruct A6]; congruence. }
  destruct a as [p|].
  - destruct q as [q'|].
    + destruct (ok r) eqn:Er; cbn [negb andb]; [apply wp_ret; exact K2|].
      destruct (idirty || bypass); [|apply wp_ret; exact K2].
      apply Kagain; [reflexivity|]. destruct H2 as [H2|(_ & H2 & _)]; [exact H2|discriminate].
    + apply Kagain; [reflexivity|]. destruct H2 as [H2|(H2 & _)]; [exact H2|congruence].
  - destruct q as [q'|]; [apply wp_ret; exact K2|].
    destruct H2 as [H2|(H2 & _)]; [|congruence].
    apply wp_bind.
    apply wp_mono with (Q := fun _ s3 => still s1 s3) (S := fun _ => False); [| |contradiction].
    { assert (K3 : still s2 (next P C Img (w_fdirty P C Img false s2))) by apply still_next_of, still_fdirty.
      apply wp_call; [eapply still_trans; eauto|]. intros r' Hr. split.
      - eapply still_trans; eauto.
      - eapply still_trans; [exact H2|apply still_next]. }
    intros u s3 H3. apply wp_bind, wp_set, wp_bind, wp_set.
    assert (H4 : still s1 (w_pfm_dirty P C Img false (w_dirty P C Img false s3))).
    { eapply still_trans; [exact H3|]. eapply still_trans; [apply still_dirty|apply still_pfm_dirty]. }
    set (s4 := w_pfm_dirty P C Img false (w_dirty P C Img false s3)) in *. clearbody s4.
    assert (H5 : Inv s4) by (eapply still_Inv; eauto).
    assert (Kh4 : unheld s s4) by (apply Kheld; split; apply H4).
    apply wp_bind. destruct (negb bypass || force).
    + eapply wp_mono; [apply config_bypass_spec| |].
      * intros u' s5 (B1 & B2 & B3 & B4 & B5 & B6 & B7 & B8 & B9 & B10 & B11). apply wp_ret.
        destruct H5 as (H5 & H6 & _). destruct Kh4. splits; auto.
        -- split; congruence.
        -- unfold Inv0. splits; try congruence. auto.
      * intros s5 [X Y]. destruct Kh4. split; congruence.
    + apply wp_ret, wp_ret. splits; auto. apply Inv_Inv0, H5.
Qed.

Definition may_bypass (s : st) : Prop :=
  byp s = true \/ act s = None \/ exists q, pend s = Some q /\ empty q = true.

Lemma clear_host_dirty_spec : forall b s,
  wp (clear_host_dirty _ _ _ o b) (fun _ s' => still s s') (fun _ => False) s.
Proof.
  intros b s. unfold clear_host_dirty. apply wp_bind, wp_set.
  destruct b; [|apply wp_ret, still_pfm_dirty].
  apply wp_bind.
  assert (K : forall s', still (w_pfm_dirty P C Img false s) s' -> still s (w_dirty P C Img false s')).
  { intros s' H. eapply still_trans; [apply still_pfm_dirty|]. eapply still_trans; [exact H|apply still_dirty]. }
  apply wp_call.
  - apply wp_set, K, still_next_of, still_fdirty.
  - intros r Hr. split; apply wp_set, K; [apply still_next_of, still_fdirty|apply still_next].
Qed.

Lemma update_verification_spec : forall reset ignore bs s,
  Inv s -> (forall p, act s = Some p -> U p) -> (forall p, pend s = Some p -> U p) ->
  wp (update_verification _ _ _ lookup valid same empty c o reset ignore bs)
    (fun _ s' => Inv s' /\ (byp s' = true -> may_bypass s))
    (fun s' => host_can_access s' = true -> Inv0 s') s.
Proof.
  intros reset ignore bs s HI Ua Uq. unfold update_verification.
  apply wp_bind, wp_get. destruct HI as (I1 & I2 & I3). rewrite I1.
  assert (HI : Inv s) by (unfold Inv; auto).
  apply wp_bind, wp_get, wp_bind, wp_get, wp_bind.
  apply wp_mono with (S := fun _ => False) (Q := fun x s2 => let '(r, e, a', q') := x in
       but_pfms s s2 /\ 
       (ok r = true -> act s2 = a' /\ (q' = None \/ q' = pend s2) /\
          (a' = None -> act s = None \/ exists q, pend s = Some q /\ empty q = true) /\
          (forall p, a' = Some p -> U p) /\ (forall p, q' = Some p -> U p))); [| |contradiction].
  { destruct (pend s) as [q|] eqn:Eq.
    - eapply wp_mono; [apply (check_force_spec s (act s) q); auto| |contradiction].
      intros [[[r' e] a'] q'] s2 (B1 & B2 & B3). split; [exact B1|].
      intro E. destruct (B3 E) as (D1 & D2 & D3). splits; auto.
      + destruct D3 as [D3|[D3 D4]]; [auto|right; congruence].
      + destruct D2 as [D2|[D2 D4]]; [left; congruence|right; eauto].
      + intros p Hp. destruct D2 as [D2|[D2 D4]]; [apply Ua|]; congruence.
      + intros p Hp. destruct D3 as [D3|[D3 D4]]; [congruence|apply Uq; congruence].
    - apply wp_ret. split; [constructor; auto|]. intros _. splits; auto. }
  intros [[[r e] a] q] s1 (B1 & B2).
  assert (HI1 : Inv s1) by (eapply pfms_Inv; eauto).
  assert (Hb1 : byp s1 = byp s) by apply B1.
  destruct (ok r) eqn:Er; cbn [negb].
  2:{ apply wp_bind. eapply wp_mono; [apply finalize_spec, Inv_Inv0, HI1| |contradiction].
      intros u s2 (D1 & D2 & _). apply wp_ret. split; [exact D1|]. intro E. left. congruence. }
  destruct (B2 eq_refl) as (D1 & D2 & D3 & D4 & D5).
  apply wp_bind. eapply wp_mono; [apply prepare_spec, HI1| |contradiction].
  intros h s2 (F1 & F2 & F3 & F4 & F5 & F6 & F7 & F8).
  apply wp_bind, wp_get, wp_bind, wp_get, wp_bind, wp_get. cbv zeta.
  assert (Kfin : forall (r : status) s', Inv0 s' -> (byp s' = true -> may_bypass s) ->
    wp (bind _ _ _ (finalize _ _ _) (fun _ => ret _ _ _ r))
      (fun _ s' => Inv s' /\ (byp s' = true -> may_bypass s))
      (fun s' => host_can_access s' = true -> Inv0 s') s').
  { intros r' s' H K. apply wp_bind. eapply wp_mono; [apply finalize_spec, H| |contradiction].
    intros u s3 (L1 & L2 & _). apply wp_ret. split; [exact L1|]. rewrite L2. exact K. }
  assert (Kb2 : byp s2 = true -> may_bypass s) by (intro E; left; congruence).
  apply wp_bind.
  match goal with |- wp (if ?x then _ else _) _ _ _ => destruct x end.
  2:{ apply wp_bind. eapply wp_mono; [apply clear_host_dirty_spec| |contradiction].
      intros u s3 S. cbn beta in S. apply wp_ret. apply Kfin.
      - apply Inv_Inv0. eapply still_Inv; eauto.
      - destruct S as [? ? ? ? ? ? Sb]. rewrite Sb. exact Kb2. }
  match goal with |- wp (if ?x then _ else _) _ _ _ => destruct x end.
  { apply wp_ret. apply Kfin; [apply Inv_Inv0, F1|exact Kb2]. }
  apply wp_bind. eapply wp_mono; [apply rot_access_spec| |contradiction].
  intros r3 s3 (L1 & L2 & L3). cbn beta.
  assert (HI3 : Inv s3) by (eapply access_Inv; eauto).
  assert (Hb3 : byp s3 = byp s2) by apply L1.
  apply wp_bind.
  apply wp_mono with (Q := fun _ s4 => but_access s3 s4 /\ unheld s3 s4) (S := fun _ => False); [| |contradiction].
  { assert (K : but_access s3 (next P C Img s3) /\ unheld s3 (next P C Img s3)).
    { split; [constructor; auto|split; reflexivity]. }
    destruct (reset_flash c && reset && ok r3).
    - apply wp_bind, wp_call.
      + apply wp_ret. exact K.
      + intros r' Hr. split; apply wp_ret; exact K.
    - apply wp_ret. split; [apply access_refl|split; reflexivity]. }
  intros u s4 [L4 L5].
  assert (HI4 : Inv s4) by (eapply access_Inv; eauto).
  assert (Hb4 : byp s4 = byp s3) by apply L4.
  assert (Khost : forall (r' : status) s5, Inv0 s5 -> (byp s5 = true -> may_bypass s) ->
     wp (bind _ _ _ (host_access _ _ _ o) (fun _ => ret _ _ _ r'))
      (fun r s' => wp (bind _ _ _ (finalize _ _ _) (fun _ => ret _ _ _ r))
                     (fun _ s' => Inv s' /\ (byp s' = true -> may_bypass s))
                     (fun s' => host_can_access s' = true -> Inv0 s') s')
      (fun s' => host_can_access s' = true -> Inv0 s') s5).
  { intros r' s5 H K. apply wp_bind. eapply wp_mono; [apply host_access_spec| |].
    - intros u' s6 [N1 N2]. apply wp_ret. apply Kfin; [eapply access_Inv0; eauto|].
      destruct N1. rewrite d_byp0. exact K.
    - intros s6 N1 _. eapply access_Inv0; eauto. }
  apply wp_bind.
  match goal with |- wp (if negb (ok r3) || ?x || ?y then _ else _) _ _ _ => set (chk := x); set (nc := y) end.
  destruct (ok r3) eqn:Er3; cbn [negb orb].
  2:{ apply wp_bind.
      apply wp_mono with (Q := fun _ s5 => still s4 s5) (S := fun _ => False); [| |contradiction].
      { destruct chk; [apply clear_host_dirty_spec|apply wp_ret, still_refl]. }
      intros u' s5 S. cbn beta in S. apply wp_ret. apply Khost.
      - apply Inv_Inv0. eapply still_Inv; eauto.
      - destruct S. intro E. apply Kb2. congruence. }
  destruct (chk || nc).
  { apply wp_bind.
    apply wp_mono with (Q := fun _ s5 => still s4 s5) (S := fun _ => False); [| |contradiction].
    { destruct chk; [apply clear_host_dirty_spec|apply wp_ret, still_refl]. }
    intros u' s5 S. cbn beta in S. apply wp_ret. apply Khost.
    - apply Inv_Inv0. eapply still_Inv; eauto.
    - destruct S. intro E. apply Kb2. congruence. }
  match goal with |- wp (if ?x then _ else _) _ _ _ => destruct x end.
  { apply wp_ret. apply Khost; [apply Inv_Inv0, HI4|]. intro E. apply Kb2. congruence. }
  assert (L6 : locked s4) by (eapply unheld_locked; eauto).
  assert (Hact : act s4 = a).
  { destruct L1 as [], L4 as []. congruence. }
  assert (Hpend : pend s4 = pend s1).
  { destruct L1 as [], L4 as []. congruence. }
  eapply wp_mono; [apply update_flows_spec; auto; try congruence; rewrite Hpend; exact D2| |].
  - intros r5 s5 (N1 & N2 & N3). apply Khost; [exact N2|].
    intro E. destruct (N3 E) as [N4|N4]; [apply Kb2; congruence|right; auto].
  - intros s5 N. rewrite (locked_no_access s5); [discriminate|]. eapply unheld_locked; eauto.
Qed.

(** ** The other operations *)

Definition Out (r : Prop) (s' : st) : Prop := r -> Inv s'.

Lemma Inv_bypass : forall s, unsup s = false -> preval s = PNone -> byp s = true -> Inv s.
Proof. intros. unfold Inv. auto. Qed.

Lemma then_host_spec : forall (r : status) s,
  wp (bind _ _ _ (host_access _ _ _ o) (fun _ => ret _ _ _ r))
    (fun r' s' => but_access s s' /\ r' = r) (fun s' => but_access s s') s.
Proof.
  intros r s. apply wp_bind. eapply wp_mono; [apply host_access_spec| |auto].
  intros u s' [A _]. apply wp_ret. auto.
Qed.

Lemma force_bypass_spec : forall b s,
  wp (force_bypass _ _ _ c o b)
    (fun _ s' => byp s' = true /\ unsup s' = unsup s /\ preval s' = preval s)
    (unheld s) s.
Proof.
  intros b s. unfold force_bypass. apply wp_bind.
  apply wp_mono with (Q := fun _ s1 => f_on s1 = f_on s /\ acc s1 = acc s /\ unsup s1 = unsup s /\ preval s1 = preval s)
                     (S := fun _ => False); [| |contradiction].
  { destruct b; [apply wp_set|apply wp_ret]; fields; auto. }
  intros u s1 (A1 & A2 & A3 & A4). eapply wp_mono; [apply config_bypass_spec| |].
  - intros u' s2 (B1 & B2 & B3 & B4 & B5 & B6 & B7 & B8 & B9 & B10 & B11). splits; auto; congruence.
  - intros s2 [B1 B2]. split; congruence.
Qed.

Lemma flash_rollback_spec : forall b s,
  Inv s -> (forall p, act s = Some p -> U p) -> (act s <> None \/ byp s = true) ->
  wp (flash_rollback _ _ _ lookup valid c o b)
    (fun _ s' => Inv s' /\ (byp s' = true -> byp s = true))
    (fun s' => host_can_access s' = true -> Inv s') s.
Proof.
  intros b s HI Ua Ht. unfold flash_rollback. pose proof HI as HI'. destruct HI' as (I1 & I2 & I3).
  apply wp_bind, wp_get, wp_bind, wp_get, wp_bind, wp_get, wp_bind, wp_get. rewrite I1, andb_false_r.
  match goal with |- wp (if ?x then _ else _) _ _ _ => destruct x eqn:Ec end.
  2:{ destruct (is_some (act s)); apply wp_ret; auto. }
  destruct (byp s && b); [apply wp_ret; auto|].
  apply wp_bind. eapply wp_mono; [apply rot_access_spec| |contradiction].
  intros r s1 (L1 & L2 & L3).
  assert (HI1 : Inv s1) by (eapply access_Inv; eauto).
  assert (Kh : forall (r' : status) s2, Inv s2 -> (byp s2 = true -> byp s = true) ->
     wp (bind _ _ _ (host_access _ _ _ o) (fun _ => ret _ _ _ r'))
       (fun _ s' => Inv s' /\ (byp s' = true -> byp s = true))
       (fun s' => host_can_access s' = true -> Inv s') s2).
  { intros r' s2 H K. eapply wp_mono; [apply then_host_spec| |].
    - intros r'' s3 [A _]. split; [eapply access_Inv; eauto|]. destruct A. rewrite d_byp0. exact K.
    - intros s3 A _. eapply access_Inv; eauto. }
  assert (Hb1 : byp s1 = byp s) by apply L1.
  assert (Ha1 : act s1 = act s) by apply L1.
  apply wp_bind. destruct (ok r) eqn:Er; cbn [negb].
  2:{ apply wp_ret, Kh; [exact HI1|congruence]. }
  specialize (L2 eq_refl).
  destruct (act s) as [p|] eqn:Ea.
  - destruct (byp s) eqn:Eb; cbn [negb].
    + apply wp_bind. eapply wp_mono; [apply force_bypass_spec| |].
      * intros u s2 (B1 & B2 & B3). apply wp_ret, Kh; [|auto].
        destruct HI1 as (J1 & J2 & _). apply Inv_bypass; congruence.
      * intros s2 H. rewrite (locked_no_access s2); [discriminate|]. eapply unheld_locked; eauto.
    + apply wp_bind. eapply wp_mono; [apply validate_rw_spec| |contradiction].
      intros y s2 [-> Hy]. fields. destruct (ok (fst y)) eqn:Ey.
      * destruct (Hy eq_refl) as [Hl Hv].
        assert (Hg : G s1 /\ ovr s1 = None).
        { destruct HI1 as (_ & _ & [J|J]); [congruence|exact J]. }
        destruct Hg as [(Hg1 & Hg2 & Hg3) Ho].
        apply wp_bind. eapply wp_mono; [apply swap_flash_spec| |].
        -- intros u s3 (A1 & A2 & A3 & A4 & A5 & A6 & A7 & A8 & A9 & A10 & A11 & A12 & A13 & A14 & [k A15]).
           change (ro (next P C Img s1)) with (ro s1) in *. fields.
           apply wp_ret, Kh; [|congruence].
           unfold Inv. splits; try congruence. { destruct HI1. congruence. }
           right. split; [|congruence].
           assert (Er3 : ro s3 = negb (ro s1)) by (unfold ro at 1; rewrite A6, Ho; exact A5).
           unfold HostProc_Flow_Proofs.G. splits; try congruence.
           rewrite A4, A13, A15. destruct A14 as [A14 _]. rewrite A14. fields. rewrite Ha1.
           eapply H_valid; eauto.
        -- intros s3 H. rewrite (locked_no_access s3); [discriminate|].
           destruct H as [H H']. destruct L2. split; fields; congruence.
      * apply wp_ret, Kh; [|fields; congruence]. eapply still_Inv; [apply still_next|exact HI1].
  - destruct Ht as [Ht|Ht]; [congruence|].
    apply wp_bind, wp_get, wp_andthen, wp_call_write. intros r1 v1.
    assert (K : forall s2, unsup s2 = unsup s1 -> preval s2 = preval s1 -> byp s2 = byp s1 -> Inv s2).
    { intros s2 X Y Z. destruct HI1 as (J1 & J2 & _). apply Inv_bypass; congruence. }
    destruct (ok r1).
    + apply wp_bind, wp_get, wp_bind, wp_call_write. intros r2 v2. destruct (ok r2).
      * apply wp_bind, wp_set, wp_ret, Kh; [apply K; reflexivity|auto].
      * apply wp_ret, Kh; [apply K; reflexivity|auto].
    + apply Kh; [apply K; reflexivity|auto].
Qed.

Lemma recover_rw_spec : forall s,
  Inv s ->
  wp (recover_rw_data _ _ _ lookup o)
    (fun _ s' => Inv s' /\ (byp s' = true -> byp s = true))
    (fun s' => host_can_access s' = true -> Inv s') s.
Proof.
  intros s HI. unfold recover_rw_data. apply wp_bind, wp_get, wp_bind, wp_get.
  destruct (act s) as [p|]; [|apply wp_ret; auto].
  destruct (byp s) eqn:Eb; [apply wp_ret; auto|].
  apply wp_bind. eapply wp_mono; [apply rot_access_spec| |contradiction].
  intros r s1 (L1 & L2 & L3).
  assert (HI1 : Inv s1) by (eapply access_Inv; eauto).
  assert (Hb1 : byp s1 = byp s) by apply L1.
  apply wp_bind.
  apply wp_mono with (Q := fun _ s2 => still s1 s2) (S := fun _ => False); [| |contradiction].
  { destruct (ok r); [apply restore_with_pfm_spec|apply wp_ret, still_refl]. }
  intros r2 s2 S. cbn beta in S. eapply wp_mono; [apply then_host_spec| |].
  - intros r3 s3 [A _]. split; [eapply access_Inv; [exact A|eapply still_Inv; eauto]|].
    destruct A, S. congruence.
  - intros s3 A _. eapply access_Inv; [exact A|eapply still_Inv; eauto].
Qed.

Lemma config_read_only_spec : forall x y z s,
  Inv s ->
  wp (config_read_only _ _ _ c o x y z)
    (fun _ s' => Inv s' /\ (byp s' = true -> byp s = true))
    (fun s' => host_can_access s' = true -> Inv s') s.
Proof.
  intros x y z s HI. pose proof HI as (I1 & I2 & I3). unfold config_read_only.
  apply wp_bind, wp_get, wp_bind, wp_get, wp_bind, wp_get, wp_bind.
  assert (Kev : forall s1, Inv s1 -> (byp s1 = true -> byp s = true) ->
    wp (bind _ _ _ (match z with Some e => set _ _ _ (w_events _ _ _ e) | None => ret _ _ _ tt end)
         (fun _ => ret _ _ _ SOk))
      (fun _ s' => Inv s' /\ (byp s' = true -> byp s = true))
      (fun s' => host_can_access s' = true -> Inv s') s1).
  { intros s1 H K. apply wp_bind. destruct z; [apply wp_set|apply wp_ret]; apply wp_ret; split; auto. }
  apply wp_mono with (Q := fun _ s1 => Inv s1 /\ byp s1 = byp s) (S := fun s' => host_can_access s' = true -> Inv s').
  3: auto.
  - destruct x as [w|]; [|apply wp_ret; auto].
    destruct (byp s) eqn:Eb; cbn [negb]; [|apply wp_ret; auto].
    destruct (negb (Bool.eqb (ro s) w)); [|apply wp_ret; auto].
    apply wp_bind, wp_set, wp_bind.
    eapply wp_mono; [apply rot_access_spec| |contradiction].
    intros r s1 (L1 & L2 & L3). apply wp_bind.
    assert (K1 : unsup s1 = false /\ preval s1 = PNone /\ byp s1 = true).
    { destruct L1. fields. splits; congruence. }
    destruct K1 as (K1 & K2 & K3).
    assert (Kh : forall s2, unsup s2 = false -> preval s2 = PNone -> byp s2 = true ->
      wp (bind _ _ _ (host_access _ _ _ o) (fun _ => ret _ _ _ r))
        (fun _ s1 => Inv s1 /\ byp s1 = true) (fun s' => host_can_access s' = true -> Inv s') s2).
    { intros s2 X Y Z. assert (HI2 : Inv s2) by (apply Inv_bypass; assumption).
      eapply wp_mono; [apply then_host_spec| |].
      - intros r3 s3 [A _]. split; [eapply access_Inv; eauto|]. destruct A. congruence.
      - intros s3 A _. eapply access_Inv; eauto. }
    destruct (ok r) eqn:Er; [|apply wp_ret, Kh; assumption].
    specialize (L2 eq_refl). eapply wp_mono; [apply config_bypass_spec| |].
    + intros u s2 (B1 & B2 & B3 & B4 & B5 & B6 & B7 & B8 & B9 & B10 & B11). apply Kh; congruence.
    + intros s2 H. rewrite (locked_no_access s2); [discriminate|]. eapply unheld_locked; eauto.
  - intros r s1 [H1 H2]. cbn beta. destruct (negb (ok r)); [apply wp_ret; split; [exact H1|congruence]|].
    apply wp_bind. destruct y as [w|]; [|apply wp_ret, Kev; [exact H1|congruence]].
    destruct (byp s) eqn:Eb.
    + apply wp_bind, wp_get, wp_bind.
      apply wp_mono with (Q := fun _ s2 => unsup s2 = false /\ preval s2 = PNone /\ byp s2 = true) (S := fun _ => False); [| |contradiction].
      { destruct H1 as (J1 & J2 & _).
        destruct (negb (Bool.eqb (ro s) w) && negb (is_some (ovr s1))); [apply wp_set|apply wp_ret]; fields; auto. }
      intros u s2 (J1 & J2 & J3). apply wp_set, Kev; [apply Inv_bypass; assumption|auto].
    + apply wp_set, Kev; [|fields; congruence]. eapply still_Inv; [apply still_dirty|exact H1].
Qed.

Lemma clear_rw_spec : forall s,
  wp (clear_rw _ _ _ o)
    (fun _ s' => f_rw s' = [] /\ chip s' = chip s /\ but_regions s s') (unheld s) s.
Proof.
  intro s. unfold clear_rw.
  apply wp_retry with (I := fun s' => chip s' = chip s /\ but_regions s s').
  - intros s1 [H1 H2].
    assert (K : but_regions s (next P C Img s1) /\ but_regions s (next P C Img (w_rw P C Img [] s1))).
    { destruct H2. split; constructor; auto. }
    apply wp_call; cbn [ok].
    + splits; [reflexivity|exact H1|apply K].
    + intros r Hr. rewrite Hr. split; (split; [exact H1|apply K]).
  - intros s1 [_ H]. destruct H. split; assumption.
  - split; [reflexivity|]. constructor; auto.
Qed.

Variable R : Img -> Prop.
Hypothesis H_rec : forall i a, R i -> TT a (applied i) [].

Lemma apply_recovery_spec : forall s,
  Inv s -> (forall i, rec s = Some i -> R i) ->
  wp (apply_recovery_image _ _ _ applied c o)
    (fun r s' => (byp s' = true -> byp s = true) /\
                 ((r = SOk \/ forall b, chip s' b = chip s b) -> Inv s'))
    (fun s' => host_can_access s' = true -> (forall b, chip s' b = chip s b) -> Inv s') s.
Proof.
  intros s HI Hr. pose proof HI as (I1 & I2 & I3). unfold apply_recovery_image.
  apply wp_bind, wp_get, wp_bind, wp_get. rewrite I1, andb_false_r.
  destruct (has_recovery c); cbn [negb]; [|apply wp_ret; auto].
  apply wp_bind, wp_get. destruct (rec s) as [i|] eqn:Ei; [|apply wp_ret; auto].
  apply wp_bind. eapply wp_mono; [apply rot_access_spec| |contradiction].
  intros r s1 (L1 & L2 & L3). apply wp_bind.
  pose proof (access_ro _ _ L1) as Hro. pose proof L1 as L1'. destruct L1'.
  set (same_but_chip := fun s2 : st =>
     f_mode s2 = f_mode s /\ f_ro s2 = f_ro s /\ f_rw s2 = f_rw s /\ nv_ro s2 = nv_ro s /\ ovr s2 = ovr s /\
     byp s2 = byp s /\ unsup s2 = unsup s /\ act s2 = act s /\ preval s2 = preval s).
  assert (K : forall s2, same_but_chip s2 -> (forall b, chip s2 b = chip s b) -> Inv s2).
  { intros s2 (A1 & A2 & A3 & A4 & A5 & A6 & A7 & A8 & A9) E. unfold Inv. splits; try congruence.
    destruct I3 as [I3|[(G1 & G2 & G3) I3]]; [left; congruence|right; split; [|congruence]].
    unfold HostProc_Flow_Proofs.G, ro in *. rewrite A1, A2, A3, A4, A5, A8, E. auto. }
  assert (Kfail : forall r' s2, same_but_chip s2 -> ok r' = false ->
     wp (bind _ _ _ (host_access _ _ _ o) (fun _ => ret _ _ _ r'))
       (fun r s' => (byp s' = true -> byp s = true) /\ ((r = SOk \/ forall b, chip s' b = chip s b) -> Inv s'))
       (fun s' => host_can_access s' = true -> (forall b, chip s' b = chip s b) -> Inv s') s2).
  { intros r' s2 A E. eapply wp_mono; [apply then_host_spec| |].
    - intros r3 s3 [B ->].
      assert (A3 : same_but_chip s3).
      { destruct A as (A1 & A2 & A3 & A4 & A5 & A6 & A7 & A8 & A9). destruct B. unfold same_but_chip. splits; congruence. }
      split; [destruct A3 as (_ & _ & _ & _ & _ & A3 & _); congruence|].
      intros [F|F]; [rewrite F in E; discriminate|]. apply K; auto.
    - intros s3 B _ F.
      assert (A3 : same_but_chip s3).
      { destruct A as (A1 & A2 & A3 & A4 & A5 & A6 & A7 & A8 & A9). destruct B. unfold same_but_chip. splits; congruence. }
      apply K; auto. }
  assert (S1 : same_but_chip s1) by (unfold same_but_chip; splits; congruence).
  destruct (ok r) eqn:Er; [|apply wp_ret, Kfail; assumption].
  specialize (L2 eq_refl).
  apply wp_bind, wp_get, wp_andthen, wp_call_write. intros r1 v1.
  destruct (ok r1) eqn:Er1; [|apply Kfail; [exact S1|exact Er1]].
  apply wp_andthen, wp_call_write. intros r2 v2.
  destruct (ok r2) eqn:Er2; [|apply Kfail; [exact S1|exact Er2]].
  apply wp_bind, wp_set, wp_bind, wp_get.
  set (s2 := w_chip P C Img (ro s1) (applied i) _).
  assert (S2 : same_but_chip s2) by exact S1.
  assert (L4 : locked s2) by exact L2.
  assert (C2 : chip s2 (ro s1) = applied i).
  { subst s2. fields. rewrite eqb_reflx. reflexivity. }
  clearbody s2. destruct S2 as (A1 & A2 & A3 & A4 & A5 & A6 & A7 & A8 & A9).
  assert (Kok : forall s3, Inv s3 -> byp s3 = byp s ->
     wp (bind _ _ _ (host_access _ _ _ o) (fun _ => ret _ _ _ SOk))
       (fun r s' => (byp s' = true -> byp s = true) /\ ((r = SOk \/ forall b, chip s' b = chip s b) -> Inv s'))
       (fun s' => host_can_access s' = true -> (forall b, chip s' b = chip s b) -> Inv s') s3).
  { intros s3 H3 B3. eapply wp_mono; [apply then_host_spec| |].
    - intros r4 s4 [B _]. destruct B eqn:EB. split; [congruence|]. intros _. eapply access_Inv; eauto.
    - intros s4 B _ _. eapply access_Inv; eauto. }
  apply wp_bind. rewrite A6. destruct (byp s) eqn:Eb; cbn [negb].
  - apply wp_ret, wp_ret, Kok; [|exact A6]. apply Inv_bypass; congruence.
  - destruct I3 as [I3|[(G1 & G2 & G3) I3]]; [discriminate|].
    apply wp_bind. eapply wp_mono; [apply clear_rw_spec| |].
    + intros u s3 (B1 & B2 & B3). destruct B3.
      assert (L5 : locked s3) by (destruct L4; split; congruence).
      eapply wp_mono; [apply config_flash_spec| |].
      * intros u' s4 E.
        assert (E4 : f_mode s4 = f_mode s3 /\ f_ro s4 = ro s3 /\ f_rw s4 = f_rw s3 /\ nv_ro s4 = nv_ro s3 /\
                     ovr s4 = ovr s3 /\ byp s4 = byp s3 /\ unsup s4 = unsup s3 /\ act s4 = act s3 /\
                     preval s4 = preval s3 /\ chip s4 = chip s3).
        { rewrite E. fields. splits; reflexivity. }
        destruct E4 as (E1 & E2 & E3 & E4 & E5 & E6 & E7 & E8 & E9 & E10). clear E.
        assert (Er3 : ro s3 = ro s1).
        { unfold ro. replace (ovr s3) with (ovr s1) by congruence. replace (nv_ro s3) with (nv_ro s1) by congruence. reflexivity. }
        apply wp_ret, Kok; [|congruence]. unfold Inv. splits; try congruence.
        right. split; [|congruence]. unfold HostProc_Flow_Proofs.G. splits; try congruence.
        -- unfold ro. rewrite E2, E4, E5. reflexivity.
        -- rewrite E2, E3, E10, B1, B2, Er3, C2. apply H_rec. auto.
      * intros s4 H. rewrite (locked_no_access s4); [discriminate|].
        eapply unheld_locked; [exact L5|exact H].
    + intros s3 H. rewrite (locked_no_access s3); [discriminate|]. eapply unheld_locked; eauto.
Qed.

Lemma bypass_mode_spec : forall b s,
  Inv s ->
  wp (bypass_mode _ _ _ c o b) (fun _ s' => Inv s') (fun _ => True) s.
Proof.
  intros b s (I1 & I2 & _). unfold bypass_mode. apply wp_bind.
  eapply wp_mono; [apply force_bypass_spec| |auto].
  intros u s1 (A1 & A2 & A3).
  eapply wp_mono; [apply then_host_spec| |auto].
  intros r s2 [B _]. eapply access_Inv; [exact B|]. apply Inv_bypass; congruence.
Qed.

Notation tidy := (tidy P C Img).

(** Every operation keeps the claim, and while it runs the host only has the flash if it holds. *)
Lemma step_spec : forall x s,
  Inv s -> (forall p, act s = Some p -> U p) -> (forall p, pend s = Some p -> U p) ->
  (forall i, rec s = Some i -> R i) ->
  (forall a q b, x = PfmsAre a q b -> forall v l, TT (act s) v l -> TT a v l) ->
  wp (step _ _ _ lookup valid same empty applied c o x)
    (fun r s' => (tidy x s s' (Some r) -> Inv s') /\
       (byp s' = true -> may_bypass s \/ exists b, x = BypassMode b))
    (fun s' => host_can_access s' = true -> tidy x s s' None -> (forall b, x <> BypassMode b) -> Inv0 s') s.
Proof.
  intros x s HI Ua Uq Ur Hp. pose proof HI as (I1 & I2 & I3).
  destruct x; cbn [step HostProc_Spec.tidy].
  - eapply wp_mono; [apply update_verification_spec; auto| |auto].
    intros r s' [A B]. auto.
  - eapply wp_mono; [apply update_verification_spec; auto| |auto].
    intros r s' [A B]. auto.
  - unfold wp, HostProc_Proofs.wp.
    destruct (act s) as [p|] eqn:Ea; [|destruct (byp s) eqn:Eb].
    + assert (W := flash_rollback_spec disable_bypass s HI). rewrite Ea in W.
      assert (Hn : Some p <> None \/ byp s = true) by (left; discriminate).
      specialize (W Ua Hn).
      unfold HostProc_Proofs.wp in W.
      destruct (flash_rollback P C Img lookup valid c o disable_bypass s) as [s' [r|]].
      * destruct W as [W1 W2]. split; [auto|]. intro E. left. left. auto.
      * intros E _ _. apply Inv_Inv0. auto.
    + assert (W := flash_rollback_spec disable_bypass s HI). rewrite Ea in W.
      specialize (W Ua). specialize (W (or_intror Eb)). unfold HostProc_Proofs.wp in W.
      destruct (flash_rollback P C Img lookup valid c o disable_bypass s) as [s' [r|]].
      * destruct W as [W1 W2]. split; [auto|]. intro E. left. left. auto.
      * intros E _ _. apply Inv_Inv0. auto.
    + destruct (flash_rollback P C Img lookup valid c o disable_bypass s) as [s' [r|]].
      * split; [intros [H|H]; congruence|]. intros _. left. right. left. exact Ea.
      * intros _ [H|H]; congruence.
  - eapply wp_mono; [apply recover_rw_spec; auto| |].
    + intros r s' [A B]. split; [auto|]. intro E. left. left. auto.
    + intros s' H E _ _. apply Inv_Inv0; auto.
  - eapply wp_mono; [apply apply_recovery_spec; auto| |].
    + intros r s' [A B]. split.
      * intros [E|E]; apply B; [left; congruence|right; exact E].
      * intro E. left. left. auto.
    + intros s' H E [F|F] _; [discriminate|]. apply Inv_Inv0; auto.
  - eapply wp_mono; [apply bypass_mode_spec; auto| |].
    + intros r s' A. split; [auto|]. intros _. right. eauto.
    + intros s' _ _ _ F. exfalso. eapply F. reflexivity.
  - eapply wp_mono; [apply config_read_only_spec; auto| |].
    + intros r s' [A B]. split; [auto|]. intro E. left. left. auto.
    + intros s' H E _ _. apply Inv_Inv0; auto.
  - apply wp_bind, wp_set, wp_ret. destruct (host_can_access s).
    2:{ split; [auto|]. intro E. left. left. exact E. }
    split; [|intro E; left; left; exact E]. intros _. unfold Inv. fields. splits; auto.
    destruct I3 as [I3|[(G1 & G2 & G3) I3]]; [left; exact I3|right; split; [|exact I3]].
    unfold HostProc_Flow_Proofs.G, ro, writable_chip in *. fields. rewrite G1. splits; auto.
    replace (Bool.eqb (f_ro s) (negb (f_ro s))) with false by (destruct (f_ro s); reflexivity).
    exact G3.
  - apply wp_bind, wp_set, wp_ret. split; [|intro E; left; left; exact E].
    intros _. unfold Inv. fields. splits; auto.
  - apply wp_bind, wp_set, wp_ret. split; [|intro E; left; left; exact E].
    intros _. unfold Inv. fields. splits; auto.
    destruct I3 as [I3|[(G1 & G2 & G3) I3]]; [left; exact I3|right; split; [|exact I3]].
    unfold HostProc_Flow_Proofs.G, ro in *. fields. splits; auto. eapply Hp; eauto.
  - apply wp_bind, wp_set, wp_ret. split; [|intro E; left; left; exact E]. auto.
Qed.

End Main.
