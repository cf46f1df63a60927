(** What the flows do when nothing fails. *)
From Coq Require Import List NArith Bool Lia Arith.
From Verif Require Import HostFw_Model HostProc_Model HostProc_Spec.
Import ListNotations.

Section Live.

Variables (P C Img : Type).
Variable lookup : P -> C -> option (list region).
Variable valid : bool -> P -> C -> bool.
Variable same : P -> P -> C -> bool.
Variable empty : P -> bool.
Variable c : config.
Variable o : oracle C.
Hypothesis H : no_faults C o.

Notation st := (st P C Img).
Notation M := (M P C Img).

Ltac fields :=
  cbn [chip f_on f_mode f_ro f_rw f_dirty acc nv_ro ovr dirty events pfm_dirty preval byp unsup act
       pend rec tick next w_chip w_on w_mode w_ro w_rw w_fdirty w_acc w_nv w_ovr w_dirty w_events
       w_pfm_dirty w_preval w_byp w_unsup w_pfms w_rec] in *.

Definition run {A} (m : M A) (Q : A -> st -> Prop) (s : st) : Prop :=
  exists s' a, m s = (s', Some a) /\ Q a s'.

Lemma run_ret : forall A (a : A) (Q : A -> st -> Prop) s, Q a s -> run (ret _ _ _ a) Q s.
Proof. intros. exists s, a. auto. Qed.

Lemma run_get : forall A (f : st -> A) (Q : A -> st -> Prop) s, Q (f s) s -> run (get _ _ _ f) Q s.
Proof. intros. exists s, (f s). auto. Qed.

Lemma run_set : forall f (Q : unit -> st -> Prop) s, Q tt (f s) -> run (set _ _ _ f) Q s.
Proof. intros. exists (f s), tt. auto. Qed.

Lemma run_bind : forall A B (m : M A) (f : A -> M B) Q s,
  run m (fun a s' => run (f a) Q s') s -> run (bind _ _ _ m f) Q s.
Proof.
  intros A B m f Q s (s' & a & E & s2 & b & E2 & HQ). exists s2, b. unfold bind. rewrite E. auto.
Qed.

Lemma run_andthen : forall m k Q s,
  run m (fun r s' => if ok r then run k Q s' else Q r s') s -> run (andthen _ _ _ m k) Q s.
Proof.
  intros m k Q s (s' & r & E & K). unfold andthen, bind, run. rewrite E.
  destruct (ok r); [exact K|]. exists s', r. auto.
Qed.

Lemma run_call : forall f (Q : status -> st -> Prop) s, Q SOk (next _ _ _ (f s)) -> run (call _ _ _ o f) Q s.
Proof.
  intros f Q s K. exists (next _ _ _ (f s)), SOk. split; [|exact K].
  unfold call. destruct H as [E _]. rewrite E. reflexivity.
Qed.

Lemma run_call_write : forall cs (Q : status -> st -> Prop) s,
  (forall v, Q SOk (next _ _ _ (w_chip _ _ _ cs v s))) -> run (call_write _ _ _ o cs) Q s.
Proof.
  intros cs Q s K. exists (next _ _ _ (w_chip _ _ _ cs (a_content (ask o (tick s))) s)), SOk.
  split; [|apply K]. unfold call_write. destruct H as [E _]. rewrite E. reflexivity.
Qed.

Lemma run_retry : forall m (Q : unit -> st -> Prop) s,
  run m (fun r s' => ok r = true /\ Q tt s') s -> run (retry _ _ _ (fuel o) m) Q s.
Proof.
  intros m Q s (s' & r & E & Hr & K). destruct H as (_ & F & _). destruct (fuel o) as [|n]; [congruence|].
  cbn [retry]. unfold bind, run. rewrite E, Hr. exists s', tt. auto.
Qed.

Lemma run_attempts : forall n stop m (Q : status -> st -> Prop) s,
  run m (fun r s' => ok r = true /\ Q r s') s -> run (attempts _ _ _ n stop m) Q s.
Proof.
  intros n stop m Q s (s' & r & E & Hr & K). exists s', r. split; [|exact K].
  destruct n; cbn [attempts]; unfold bind; rewrite E; [reflexivity|]. rewrite Hr. reflexivity.
Qed.

(** The regions in the filter, and any number of calls later. *)
Definition later (n : nat) (s : st) : st :=
  mkSt (chip s) (f_on s) (f_mode s) (f_ro s) (f_rw s) (f_dirty s) (acc s) (nv_ro s)
    (ovr s) (dirty s) (events s) (pfm_dirty s) (preval s) (byp s) (unsup s) (act s) (pend s) (rec s) n.

Lemma run_add : forall l (Q : status -> st -> Prop) s,
  (forall n, Q SOk (later n (w_rw _ _ _ (f_rw s ++ l) s))) -> run (add_regions _ _ _ o l) Q s.
Proof.
  induction l as [|r l IH]; intros Q s K.
  - apply run_ret. specialize (K (tick s)). rewrite app_nil_r in K. destruct s. exact K.
  - cbn [add_regions]. apply run_andthen.
    exists (next _ _ _ (w_rw _ _ _ (f_rw s ++ [r]) s)), SOk. split.
    + unfold call_add. destruct H as [E _]. rewrite E. reflexivity.
    + cbn [ok]. apply IH. intro n. fields. rewrite <- app_assoc. apply K.
Qed.

Lemma run_set_regions : forall l (Q : status -> st -> Prop) s,
  (forall n, Q SOk (later n (w_rw _ _ _ l s))) -> run (set_regions _ _ _ o l) Q s.
Proof.
  intros l Q s K. unfold set_regions. apply run_andthen, run_call. cbn [ok]. apply run_add. intro n.
  fields. cbn [app]. apply K.
Qed.

Lemma run_config_rw : forall l (Q : unit -> st -> Prop) s,
  (forall n, Q tt (later n (w_rw _ _ _ l s))) -> run (config_rw _ _ _ o (fuel o) l) Q s.
Proof.
  intros l Q s K. pose proof H as (_ & F & _). destruct (fuel o) as [|n]; [congruence|].
  cbn [config_rw]. apply run_bind, run_set_regions. intro m. apply run_ret. apply K.
Qed.

Lemma run_check : forall full p cs (Q : status * list region -> st -> Prop) s,
  Q (match lookup p (chip s cs) with
     | Some l => if valid full p (chip s cs) then (SOk, l) else (SValidation, [])
     | None => (SValidation, [])
     end) (next _ _ _ s) ->
  run (check_flash _ _ _ lookup valid o full p cs) Q s.
Proof.
  intros full p cs Q s K. unfold check_flash, run. destruct H as [E _]. rewrite E. eauto.
Qed.

Lemma run_find : forall p cs (Q : status * list region -> st -> Prop) s,
  Q (match lookup p (chip s cs) with Some l => (SOk, l) | None => (SValidation, []) end) (next _ _ _ s) ->
  run (find_regions _ _ _ lookup o p cs) Q s.
Proof.
  intros p cs Q s K. unfold find_regions, run. destruct H as [E _]. rewrite E. eauto.
Qed.

Lemma run_check_pfm : forall p g cs (Q : status * list region -> st -> Prop) s l,
  lookup p (chip s cs) = Some l -> valid false p (chip s cs) = true ->
  Q (SOk, l) (next _ _ _ s) ->
  run (check_pfm _ _ _ lookup valid same o p g cs) Q s.
Proof.
  intros p g cs Q s l E1 E2 K. unfold check_pfm, run. destruct H as [E _]. rewrite E, E1, E2, orb_true_r. eauto.
Qed.

Ltac one :=
  lazymatch goal with
  | |- run (bind _ _ _ _ _) _ _ => apply run_bind
  | |- run (get _ _ _ _) _ _ => apply run_get
  | |- run (set _ _ _ _) _ _ => apply run_set
  | |- run (ret _ _ _ _) _ _ => apply run_ret
  | |- run (andthen _ _ _ _ _) _ _ => apply run_andthen
  | |- run (call _ _ _ _ _) _ _ => apply run_call
  | |- run (call_write _ _ _ _ _) _ _ => apply run_call_write; intro
  | |- run (retry _ _ _ _ _) _ _ => apply run_retry
  | |- run (attempts _ _ _ _ _ _) _ _ => apply run_attempts
  | |- run (config_rw _ _ _ _ _ _) _ _ => apply run_config_rw; intro
  | |- run (set_regions _ _ _ _ _) _ _ => apply run_set_regions; intro
  | |- run (check_flash _ _ _ _ _ _ _ _ _) _ _ => apply run_check
  | |- run (find_regions _ _ _ _ _ _ _) _ _ => apply run_find
  | |- true = true /\ _ => split; [reflexivity|]
  end.
Ltac simp :=
  cbn [ok negb andb orb is_some fst snd unsupported validation_failure activation_eqb later ro
       chip f_on f_mode f_ro f_rw f_dirty acc nv_ro ovr dirty events pfm_dirty preval byp unsup act
       pend rec tick next w_chip w_on w_mode w_ro w_rw w_fdirty w_acc w_nv w_ovr w_dirty w_events
       w_pfm_dirty w_preval w_byp w_unsup w_pfms w_rec].
Ltac go := simp; repeat (one; simp).
Ltac open_state s := destruct s as [ch on md fr rw fd ac nv ov d ev pd pv b u a0 q0 rc tk]; fields.

Lemma eqb_neg : forall b, Bool.eqb (negb b) b = false.
Proof. intros []; reflexivity. Qed.
Lemma eqb_neg' : forall b, Bool.eqb b (negb b) = false.
Proof. intros []; reflexivity. Qed.

(** Protecting a host that is active: the state both flows start from. *)
Definition active_mode (p : P) (s : st) : Prop :=
  unsup s = false /\ byp s = false /\ ovr s = None /\ preval s = PNone /\ act s = Some p /\ f_ro s = nv_ro s.

Ltac finish :=
  unfold host_can_access; simp; rewrite ?eqb_neg, ?eqb_neg', ?eqb_reflx, ?negb_involutive;
  repeat match goal with |- _ /\ _ => split end; auto.

Lemma soft_reset_accepts : forall p l s,
  active_mode p s -> pend s = None -> dirty s = true ->
  (events s = OnPorAndReset \/ events s = OnAll) ->
  lookup p (chip s (negb (f_ro s))) = Some l -> valid true p (chip s (negb (f_ro s))) = true ->
  run (soft_reset _ _ _ lookup valid same empty c o)
    (fun r s' => r = SOk /\ host_can_access s' = true /\ f_ro s' = negb (f_ro s) /\ nv_ro s' = f_ro s' /\
       chip s' (f_ro s') = chip s (f_ro s') /\ f_rw s' = l /\ dirty s' = false /\ act s' = Some p /\
       byp s' = false /\ f_mode s' = f_mode s) s.
Proof.
  intros p l s (A1 & A2 & A3 & A4 & A5 & A6) Hp Hd He Hl Hv.
  open_state s. destruct He as [He|He]; subst;
  unfold soft_reset, update_verification; go; unfold prepare; go;
  rewrite eqb_reflx; go; unfold rot_access; destruct (reset_flash c); go;
  unfold update_flows; go; unfold validate_flash; go;
  unfold validate_rw; go; rewrite Hl, Hv; go; unfold swap_flash; go; unfold swap_devices; go;
  unfold host_access; go; unfold finalize; go; finish.
Qed.

Lemma soft_reset_rejects : forall p s,
  active_mode p s -> pend s = None -> dirty s = true ->
  (events s = OnPorAndReset \/ events s = OnAll) ->
  lookup p (chip s (negb (f_ro s))) = None \/ valid true p (chip s (negb (f_ro s))) = false ->
  lookup p (chip s (f_ro s)) <> None ->
  run (soft_reset _ _ _ lookup valid same empty c o)
    (fun r s' => r = SValidation /\ host_can_access s' = true /\ f_ro s' = f_ro s /\ nv_ro s' = f_ro s' /\
       chip s' (f_ro s') = chip s (f_ro s') /\ f_rw s' = f_rw s /\ dirty s' = false /\ act s' = Some p /\
       byp s' = false /\ f_mode s' = f_mode s) s.
Proof.
  intros p s (A1 & A2 & A3 & A4 & A5 & A6) Hp Hd He Hv Hl.
  open_state s.
  destruct (lookup p (ch fr)) as [l0|] eqn:E0; [|congruence].
  assert (Hbad : forall l', match lookup p (ch (negb fr)) with
                 | Some l => if valid true p (ch (negb fr)) then (SOk, l) else (SValidation, l')
                 | None => (SValidation, l')
                 end = (SValidation, l')).
  { intro l'. destruct (lookup p (ch (negb fr))) as [l1|]; [|reflexivity].
    destruct Hv as [Hv|Hv]; [discriminate|rewrite Hv; reflexivity]. }
  clear Hv. destruct He as [He|He]; subst;
  unfold soft_reset, update_verification; go; unfold prepare; go;
  rewrite eqb_reflx; go; unfold rot_access; destruct (reset_flash c); go;
  unfold update_flows; go; unfold validate_flash; go;
  unfold validate_rw; go; rewrite Hbad; go; unfold restore_with_pfm; go; rewrite E0; go;
  unfold restore_with_list; go; unfold host_access; go; unfold finalize; go; finish.
Qed.

Lemma run_time_activates : forall p q l s,
  active_mode p s -> pend s = Some q -> empty q = false -> dirty s = false -> pfm_dirty s = true ->
  (events s = OnPorAndRunTime \/ events s = OnAll) ->
  lookup q (chip s (f_ro s)) = Some l -> valid false q (chip s (f_ro s)) = true ->
  run (run_time_verification _ _ _ lookup valid same empty c o)
    (fun r s' => r = SOk /\ host_can_access s' = true /\ f_ro s' = f_ro s /\ nv_ro s' = f_ro s' /\
       chip s' (f_ro s') = chip s (f_ro s') /\ f_rw s' = l /\ act s' = Some q /\ pend s' = None /\
       byp s' = false /\ f_mode s' = f_mode s) s.
Proof.
  intros p q l s (A1 & A2 & A3 & A4 & A5 & A6) Hp Hem Hd Hpd He Hl Hv.
  pose proof H as (_ & _ & Hact).
  open_state s. destruct He as [He|He]; subst;
  unfold run_time_verification, update_verification; go; unfold check_force_bypass; go; rewrite Hem; go;
  unfold prepare; go;
  rewrite eqb_reflx; go; unfold rot_access; destruct (reset_flash c); go;
  unfold update_flows; go; unfold validate_flash; go;
  unfold validate_ro; go; (eapply run_check_pfm; [exact Hl|exact Hv|]); go;
  unfold activate_pending; go; rewrite Hact; go;
  unfold host_access; go; unfold finalize; go; finish.
Qed.

Lemma power_on_boots : forall p l s,
  act s = Some p -> pend s = None -> dirty s = false ->
  lookup p (chip s (nv_ro s)) = Some l -> valid false p (chip s (nv_ro s)) = true ->
  run (power_on _ _ _ lookup valid same empty c o)
    (fun r s' => r = SOk /\ host_can_access s' = true /\ f_ro s' = nv_ro s /\ nv_ro s' = f_ro s' /\
       chip s' (f_ro s') = chip s (f_ro s') /\ f_rw s' = l /\ act s' = Some p /\
       byp s' = false /\ f_mode s' = f_mode s) s.
Proof.
  intros p l s Ha Hp Hd Hl Hv.
  open_state s. subst. unfold power_on; go; unfold initial_rot_access; go. 
  unfold rot_access; go. unfold power_on_flows; go.
  unfold validate_flash; go; unfold validate_ro; go; rewrite Hl, Hv; go.
  unfold config_flash; go. unfold host_access; go; finish.
Qed.

End Live.
