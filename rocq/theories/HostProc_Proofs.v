(** The steps of the flows: what each of them changes and what it leaves alone. *)
From Coq Require Import List NArith Bool Lia Arith.
From Verif Require Import HostFw_Model HostProc_Model HostProc_Spec.
Import ListNotations.

Section Steps.

Variables (P C Img : Type).
Variable lookup : P -> C -> option (list region).
Variable valid : bool -> P -> C -> bool.
Variable same : P -> P -> C -> bool.
Variable empty : P -> bool.
Variable applied : Img -> C.
Variable c : config.
Variable o : oracle C.

Notation st := (st P C Img).
Notation M := (M P C Img).

(** [Q] of the result and the state, [S] of the state of a flow that is still retrying. *)
Definition wp {A} (m : M A) (Q : A -> st -> Prop) (S : st -> Prop) (s : st) : Prop :=
  match m s with (s', Some a) => Q a s' | (s', None) => S s' end.

Lemma wp_ret : forall A (a : A) (Q : A -> st -> Prop) S s, Q a s -> wp (ret _ _ _ a) Q S s.
Proof. auto. Qed.

Lemma wp_get : forall A (f : st -> A) (Q : A -> st -> Prop) S s, Q (f s) s -> wp (get _ _ _ f) Q S s.
Proof. auto. Qed.

Lemma wp_set : forall (f : st -> st) (Q : unit -> st -> Prop) S s, Q tt (f s) -> wp (set _ _ _ f) Q S s.
Proof. auto. Qed.

Lemma wp_bind : forall A B (m : M A) (f : A -> M B) (Q : B -> st -> Prop) S s,
  wp m (fun a s' => wp (f a) Q S s') S s -> wp (bind _ _ _ m f) Q S s.
Proof.
  intros A B m f Q S s H. unfold wp, bind in *. destruct (m s) as [s' [a|]]; auto.
Qed.

Lemma wp_mono : forall A (m : M A) (Q Q' : A -> st -> Prop) (S S' : st -> Prop) s,
  wp m Q S s -> (forall a s', Q a s' -> Q' a s') -> (forall s', S s' -> S' s') -> wp m Q' S' s.
Proof. intros A m Q Q' S S' s H H1 H2. unfold wp in *. destruct (m s) as [s' [a|]]; auto. Qed.

Lemma wp_andthen : forall m k (Q : status -> st -> Prop) S s,
  wp m (fun r s' => if ok r then wp k Q S s' else Q r s') S s -> wp (andthen _ _ _ m k) Q S s.
Proof.
  intros m k Q S s H. unfold andthen. apply wp_bind. eapply wp_mono; [exact H| |auto].
  intros r s' Hr. cbn beta in *. destruct (ok r); auto.
Qed.

Lemma wp_retry : forall n m (I : st -> Prop) (Q : unit -> st -> Prop) (S : st -> Prop) s,
  (forall s, I s -> wp m (fun r s' => if ok r then Q tt s' else I s') S s) ->
  (forall s, I s -> S s) -> I s -> wp (retry _ _ _ n m) Q S s.
Proof.
  induction n; intros m I Q S s Hm HS Hs; cbn [retry].
  - unfold wp, spin. auto.
  - apply wp_bind. eapply wp_mono; [apply Hm; exact Hs| |auto].
    intros r s' Hr. cbn beta in *. destruct (ok r); [apply wp_ret; exact Hr|].
    eapply IHn; eauto.
Qed.

Lemma wp_attempts : forall n stop m (I : st -> Prop) (Q : status -> st -> Prop) (S : st -> Prop) s,
  (forall s, I s -> wp m (fun r s' => Q r s' /\ (ok r = false -> I s')) S s) ->
  I s -> wp (attempts _ _ _ n stop m) Q S s.
Proof.
  induction n; intros stop m I Q S s Hm Hs; cbn [attempts]; apply wp_bind;
    (eapply wp_mono; [apply Hm; exact Hs| |auto]); intros r s' [HQ Hr]; cbn beta in *.
  - apply wp_ret. exact HQ.
  - destruct (ok r) eqn:E; cbn [orb]; [apply wp_ret; exact HQ|].
    destruct (stop r); [apply wp_ret; exact HQ|]. eapply IHn; eauto.
Qed.

Lemma wp_call : forall eff (Q : status -> st -> Prop) S s,
  Q SOk (next _ _ _ (eff s)) ->
  (forall r, ok r = false -> Q r (next _ _ _ (eff s)) /\ Q r (next _ _ _ s)) ->
  wp (call _ _ _ o eff) Q S s.
Proof.
  intros eff Q S s H1 H2. unfold wp, call.
  destruct (a_err (ask o (tick s))); auto.
  destruct (a_eff (ask o (tick s))), (a_unsup (ask o (tick s))); apply H2; reflexivity.
Qed.

Lemma wp_call_write : forall cs (Q : status -> st -> Prop) S s,
  (forall r v, Q r (next _ _ _ (w_chip _ _ _ cs v s))) ->
  wp (call_write _ _ _ o cs) Q S s.
Proof. intros cs Q S s H. unfold wp, call_write. apply H. Qed.

(** The state of [s'] is the one of [s] except for the marked things. *)
Record still (s s' : st) : Prop := mkStill {
  q_on : f_on s' = f_on s; q_acc : acc s' = acc s; q_mode : f_mode s' = f_mode s;
  q_ro : f_ro s' = f_ro s; q_nv : nv_ro s' = nv_ro s; q_ovr : ovr s' = ovr s;
  q_byp : byp s' = byp s; q_unsup : unsup s' = unsup s; q_act : act s' = act s;
  q_pend : pend s' = pend s; q_rec : rec s' = rec s; q_events : events s' = events s;
  q_rw : f_rw s' = f_rw s;
  q_chip : chip s' (ro s) = chip s (ro s);
  q_preval : preval s = PNone -> preval s' = PNone }.

Lemma still_refl : forall s, still s s.
Proof. intro s. constructor; auto. Qed.

Lemma still_ro : forall s s', still s s' -> ro s' = ro s.
Proof. intros s s' H. unfold ro. rewrite (q_ovr _ _ H), (q_nv _ _ H). reflexivity. Qed.

Lemma still_trans : forall s s' s'', still s s' -> still s' s'' -> still s s''.
Proof.
  intros s s' s'' H K. pose proof (still_ro _ _ H) as E.
  destruct H, K. rewrite E in *. constructor; try congruence; auto.
Qed.

Lemma still_next : forall s, still s (next _ _ _ s).
Proof. intro s. constructor; auto. Qed.

(** Closes goals about single fields of updated states. *)
Ltac fields :=
  cbn [chip f_on f_mode f_ro f_rw f_dirty acc nv_ro ovr dirty events pfm_dirty preval byp unsup act
       pend rec tick next w_chip w_on w_mode w_ro w_rw w_fdirty w_acc w_nv w_ovr w_dirty w_events
       w_pfm_dirty w_preval w_byp w_unsup w_pfms w_rec] in *.

Lemma still_next_of : forall s s', still s s' -> still s (next _ _ _ s').
Proof. intros s s' H. eapply still_trans; [exact H|apply still_next]. Qed.

Lemma still_fdirty : forall s v, still s (w_fdirty _ _ _ v s).
Proof. intros s v. constructor; auto. Qed.

Lemma still_dirty : forall s v, still s (w_dirty _ _ _ v s).
Proof. intros s v. constructor; auto. fields. destruct v; auto. Qed.

Lemma still_pfm_dirty : forall s v, still s (w_pfm_dirty _ _ _ v s).
Proof. intros s v. constructor; auto. Qed.

Lemma still_preval : forall s, still s (w_preval _ _ _ PNone s).
Proof. intros s. constructor; auto. Qed.

Lemma still_chip : forall s v, still s (w_chip _ _ _ (negb (ro s)) v s).
Proof.
  intros s v. constructor; auto. fields. destruct (ro s); reflexivity.
Qed.

Lemma eqb_negb : forall b, Bool.eqb b (negb b) = false.
Proof. destruct b; reflexivity. Qed.

(** The checks only read. *)
Lemma check_flash_spec : forall full p cs s,
  wp (check_flash _ _ _ lookup valid o full p cs)
    (fun y s' => s' = next _ _ _ s /\
       (ok (fst y) = true -> lookup p (chip s cs) = Some (snd y) /\ valid full p (chip s cs) = true))
    (fun _ => False) s.
Proof.
  intros full p cs s. unfold wp, check_flash. split; [reflexivity|].
  destruct (a_err _); [discriminate|]. destruct (lookup p (chip s cs)) as [l|]; [|discriminate].
  destruct (valid full p (chip s cs)); [|discriminate]. auto.
Qed.

Lemma check_pfm_spec : forall p g cs s,
  wp (check_pfm _ _ _ lookup valid same o p g cs)
    (fun y s' => s' = next _ _ _ s /\
       (ok (fst y) = true -> lookup p (chip s cs) = Some (snd y) /\
          (same p g (chip s cs) = true \/ valid false p (chip s cs) = true)))
    (fun _ => False) s.
Proof.
  intros p g cs s. unfold wp, check_pfm. split; [reflexivity|].
  destruct (a_err _); [discriminate|]. destruct (lookup p (chip s cs)) as [l|]; [|discriminate].
  destruct (same p g (chip s cs)), (a_eff _), (valid false p (chip s cs)); cbn; try discriminate; auto.
Qed.

Lemma find_regions_spec : forall p cs s,
  wp (find_regions _ _ _ lookup o p cs)
    (fun y s' => s' = next _ _ _ s /\ (ok (fst y) = true -> lookup p (chip s cs) = Some (snd y)))
    (fun _ => False) s.
Proof.
  intros p cs s. unfold wp, find_regions. split; [reflexivity|].
  destruct (a_err _); [discriminate|]. destruct (lookup p (chip s cs)) as [l|]; [|discriminate]. auto.
Qed.

(** Restoring only writes the chip the host may write. *)
Lemma restore_with_list_spec : forall s,
  wp (restore_with_list _ _ _ o) (fun _ s' => still s s') (fun _ => False) s.
Proof.
  intro s. unfold restore_with_list. apply wp_attempts with (I := still s); [|apply still_refl].
  intros s1 H1. apply wp_bind, wp_set, wp_bind, wp_get, wp_call_write. intros r v.
  assert (K : still s (next P C Img (w_chip P C Img (negb (ro (w_preval P C Img PNone s1))) v (w_preval P C Img PNone s1)))).
  { apply still_next_of. eapply still_trans; [exact H1|].
    eapply still_trans; [apply still_preval|]. apply still_chip. }
  auto.
Qed.

Lemma restore_with_pfm_spec : forall p s,
  wp (restore_with_pfm _ _ _ lookup o p) (fun _ s' => still s s') (fun _ => False) s.
Proof.
  intros p s. unfold restore_with_pfm. apply wp_bind, wp_get, wp_bind.
  eapply wp_mono; [apply find_regions_spec| |contradiction].
  intros y s' [E _]. subst s'. destruct (ok (fst y)).
  - eapply wp_mono; [apply restore_with_list_spec| |contradiction].
    intros u s' H. eapply still_trans; [apply still_next|exact H].
  - apply wp_ret, still_next.
Qed.

(** Everything but the regions of the filter. *)
Record but_regions (s s' : st) : Prop := mkButRegions {
  b_chip : chip s' = chip s; b_on : f_on s' = f_on s; b_acc : acc s' = acc s;
  b_mode : f_mode s' = f_mode s; b_ro : f_ro s' = f_ro s; b_nv : nv_ro s' = nv_ro s;
  b_ovr : ovr s' = ovr s; b_byp : byp s' = byp s; b_unsup : unsup s' = unsup s;
  b_act : act s' = act s; b_pend : pend s' = pend s; b_rec : rec s' = rec s;
  b_events : events s' = events s; b_preval : preval s' = preval s; b_dirty : dirty s' = dirty s;
  b_pfm_dirty : pfm_dirty s' = pfm_dirty s }.

Lemma but_refl : forall s, but_regions s s.
Proof. intro s. constructor; auto. Qed.

Lemma but_trans : forall s s' s'', but_regions s s' -> but_regions s' s'' -> but_regions s s''.
Proof. intros s s' s'' H K. destruct H, K. constructor; congruence. Qed.

Lemma but_rw : forall s v, but_regions s (next _ _ _ (w_rw _ _ _ v s)).
Proof. intros s v. constructor; auto. Qed.

Lemma but_next : forall s, but_regions s (next _ _ _ s).
Proof. intros s. constructor; auto. Qed.

Lemma add_regions_spec : forall l done s all,
  f_rw s = done -> all = done ++ l ->
  wp (add_regions _ _ _ o l)
    (fun r s' => but_regions s s' /\ (exists n, f_rw s' = firstn n all) /\ (ok r = true -> f_rw s' = all))
    (fun _ => False) s.
Proof.
  induction l as [|x l IH]; intros done s all Hd Ha; cbn [add_regions].
  - apply wp_ret. rewrite app_nil_r in Ha. subst. split; [apply but_refl|]. split; [|auto].
    exists (length (f_rw s)). symmetry. apply firstn_all.
  - assert (K1 : firstn (length done) all = done).
    { subst all. rewrite firstn_app, Nat.sub_diag, firstn_all. cbn. apply app_nil_r. }
    assert (K2 : firstn (length (done ++ [x])) all = done ++ [x]).
    { subst all. rewrite <- (firstn_skipn 1 (x :: l)) at 1. cbn [firstn skipn].
      rewrite app_assoc, firstn_app, Nat.sub_diag, firstn_all. cbn. apply app_nil_r. }
    apply wp_andthen. unfold wp at 1, call_add.
    destruct (a_err (ask o (tick s))); cbn [ok].
    + destruct (a_eff (ask o (tick s))), (a_unsup (ask o (tick s))); cbn [ok];
        (split; [first [apply but_rw|apply but_next]|split; [|discriminate]]); fields;
        rewrite Hd; first [exists (length (done ++ [x])); rewrite K2; reflexivity
                          |exists (length done); rewrite K1; auto].
    + eapply wp_mono; [apply (IH (done ++ [x]) _ all)| |contradiction].
      * fields. rewrite Hd. reflexivity.
      * subst all. rewrite <- app_assoc. reflexivity.
      * intros r s' [H1 H2]. split; [|exact H2]. eapply but_trans; [apply but_rw|exact H1].
Qed.

Lemma set_regions_spec : forall l s,
  wp (set_regions _ _ _ o l)
    (fun r s' => but_regions s s' /\ (ok r = true -> f_rw s' = l) /\
                 (r = SUnsupRw -> exists n, f_rw s' = firstn n l))
    (fun _ => False) s.
Proof.
  intros l s. unfold set_regions. apply wp_andthen. unfold wp at 1, call.
  destruct (a_err (ask o (tick s))).
  - destruct (a_eff (ask o (tick s))), (a_unsup (ask o (tick s))); cbn [ok];
      (split; [first [apply but_rw|apply but_next]|split; discriminate]).
  - cbn [ok]. eapply wp_mono; [apply (add_regions_spec l [] _ l); reflexivity| |contradiction].
    intros r s' [H1 [H2 H3]]. split; [|auto]. eapply but_trans; [apply but_rw|exact H1].
Qed.

Lemma config_rw_spec : forall n l s,
  wp (config_rw _ _ _ o n l)
    (fun _ s' => but_regions s s' /\ exists k, f_rw s' = firstn k l)
    (fun s' => but_regions s s') s.
Proof.
  induction n; intros l s; cbn [config_rw].
  - unfold wp, spin. apply but_refl.
  - apply wp_bind. eapply wp_mono; [apply set_regions_spec| |contradiction].
    intros r s' [H1 [H2 H3]]. cbn beta.
    destruct r; try (apply wp_ret; split; [exact H1|]);
      try (eapply wp_mono; [apply IHn| |]; cbn beta;
           [intros u s'' [K1 K2]; split; [eapply but_trans; eauto|exact K2]
           |intros s'' K; eapply but_trans; eauto]).
    + exists (length l). rewrite firstn_all. auto.
    + auto.
Qed.

(** Nothing has happened to the chip that is verified while the chips are being exchanged. *)
Definition pre_swap (s s' : st) : Prop :=
  f_on s' = f_on s /\ acc s' = acc s /\ f_mode s' = f_mode s /\ nv_ro s' = nv_ro s /\
  ovr s' = ovr s /\ byp s' = byp s /\ unsup s' = unsup s /\ act s' = act s /\ pend s' = pend s /\
  rec s' = rec s /\ events s' = events s /\ chip s' (negb (ro s)) = chip s (negb (ro s)).

Lemma pre_swap_ro : forall s s', pre_swap s s' -> ro s' = ro s.
Proof. intros s s' H. unfold ro. destruct H as (_ & _ & _ & H1 & H2 & _). rewrite H1, H2. reflexivity. Qed.

(** The PFMs after a flow that used the pending one, or did not. *)
Definition activated (used : bool) (s s' : st) : Prop :=
  match used, pend s with
  | true, Some q => if act_ok o then act s' = Some q /\ pend s' = None
                    else act s' = act s /\ pend s' = pend s
  | _, _ => act s' = act s /\ pend s' = pend s
  end.

Lemma swap_devices_spec : forall migrate used s0 s,
  pre_swap s0 s ->
  wp (swap_devices _ _ _ o migrate used)
    (fun r s' => if ok r
       then f_on s' = f_on s0 /\ acc s' = acc s0 /\ f_mode s' = f_mode s0 /\ f_ro s' = negb (ro s0) /\
            nv_ro s' = negb (ro s0) /\ ovr s' = ovr s0 /\ byp s' = byp s0 /\ unsup s' = unsup s0 /\
            rec s' = rec s0 /\ events s' = events s0 /\ dirty s' = false /\
            chip s' (negb (ro s0)) = chip s0 (negb (ro s0)) /\ activated used s0 s'
       else pre_swap s0 s')
    (fun _ => False) s.
Proof.
  intros migrate used s0 s H. unfold swap_devices.
  apply wp_andthen, wp_call; cbn [ok]; [|intros r Hr; rewrite Hr; split; exact H].
  apply wp_bind, wp_get. change (ro (next P C Img (w_fdirty P C Img false s))) with (ro s).
  rewrite (pre_swap_ro _ _ H).
  apply wp_andthen, wp_call; cbn [ok]; [|intros r Hr; rewrite Hr; split; exact H].
  apply wp_andthen.
  assert (K : forall s', f_ro s' = negb (ro s0) -> pre_swap s0 s' ->
    wp (bind P C Img (set P C Img (w_nv P C Img (negb (ro s0))))
      (fun _ => bind P C Img (set P C Img (w_dirty P C Img false))
        (fun _ => bind P C Img (if used then activate_pending P C Img o else ret P C Img tt)
          (fun _ => ret P C Img SOk))))
    (fun r s' => if ok r
       then f_on s' = f_on s0 /\ acc s' = acc s0 /\ f_mode s' = f_mode s0 /\ f_ro s' = negb (ro s0) /\
            nv_ro s' = negb (ro s0) /\ ovr s' = ovr s0 /\ byp s' = byp s0 /\ unsup s' = unsup s0 /\
            rec s' = rec s0 /\ events s' = events s0 /\ dirty s' = false /\
            chip s' (negb (ro s0)) = chip s0 (negb (ro s0)) /\ activated used s0 s'
       else pre_swap s0 s')
    (fun _ => False) s').
  { intros s' Hro (H1 & H2 & H3 & H4 & H5 & H6 & H7 & H8 & H9 & H10 & H11 & H12).
    apply wp_bind, wp_set, wp_bind, wp_set, wp_bind. unfold activate_pending, activated.
    destruct used; [apply wp_set|apply wp_ret]; apply wp_ret; cbn [ok]; fields.
    - rewrite H9. destruct (pend s0) as [q|]; [destruct (act_ok o)|]; fields; repeat split; congruence.
    - repeat split; congruence. }
  destruct migrate.
  - apply wp_call_write. intros r v.
    assert (K2 : pre_swap s0 (next P C Img (w_chip P C Img (negb (negb (ro s0))) v
        (next P C Img (w_ro P C Img (negb (ro s0)) (next P C Img (w_fdirty P C Img false s))))))).
    { destruct H as (H1 & H2 & H3 & H4 & H5 & H6 & H7 & H8 & H9 & H10 & H11 & H12).
      unfold pre_swap. fields. repeat split; try assumption.
      rewrite (eqb_negb (negb (ro s0))). exact H12. }
    destruct (ok r) eqn:Er.
    + apply K; [reflexivity|exact K2].
    + exact K2.
  - apply wp_ret. cbn [ok]. apply K; [reflexivity|exact H].
Qed.

Lemma swap_flash_spec : forall l used no_migrate s,
  wp (swap_flash _ _ _ o l used no_migrate)
    (fun _ s' =>
       f_on s' = f_on s /\ acc s' = acc s /\ f_mode s' = f_mode s /\ f_ro s' = negb (ro s) /\
       nv_ro s' = negb (ro s) /\ ovr s' = ovr s /\ byp s' = byp s /\ unsup s' = unsup s /\
       rec s' = rec s /\ events s' = events s /\ dirty s' = false /\ preval s' = PNone /\
       chip s' (negb (ro s)) = chip s (negb (ro s)) /\ activated used s s' /\
       exists k, f_rw s' = firstn k l)
    (fun s' => f_on s' = f_on s /\ acc s' = acc s) s.
Proof.
  clear lookup valid same empty applied c.
  intros l used no_migrate s. unfold swap_flash. apply wp_bind.
  eapply wp_retry with (I := pre_swap s).
  - intros s1 H1. eapply wp_mono; [apply swap_devices_spec; exact H1| |contradiction].
    intros r s2 H2. cbn beta in *. destruct (ok r); [|exact H2].
    destruct H2 as (A1 & A2 & A3 & A4 & A5 & A6 & A7 & A8 & A9 & A10 & A11 & A12 & A13).
    apply wp_bind. eapply wp_mono; [apply config_rw_spec| |].
    + intros u s3 [B1 [k B2]]. apply wp_set. destruct B1. fields.
      repeat split; try congruence.
      * unfold activated in *. fields. destruct used; [|intuition congruence].
        destruct (pend s); [destruct (act_ok o)|]; intuition congruence.
      * exists k. exact B2.
    + intros s3 B1. destruct B1. split; congruence.
  - intros s1 H1. destruct H1 as (A & B & _). auto.
  - unfold pre_swap. repeat split.
Qed.

(** Turning the protection on. *)
Definition pre_protect (s s' : st) : Prop :=
  f_on s' = f_on s /\ acc s' = acc s /\ f_rw s' = f_rw s /\ nv_ro s' = nv_ro s /\ ovr s' = ovr s /\
  byp s' = byp s /\ unsup s' = unsup s /\ act s' = act s /\ pend s' = pend s /\ rec s' = rec s /\
  events s' = events s /\ chip s' (ro s) = chip s (ro s) /\ (preval s = PNone -> preval s' = PNone).

Lemma init_protection_spec : forall s,
  wp (init_protection _ _ _ o)
    (fun _ s' => f_on s' = f_on s /\ acc s' = acc s /\ nv_ro s' = nv_ro s /\
       ovr s' = ovr s /\ byp s' = false /\ unsup s' = unsup s /\ act s' = act s /\
       pend s' = pend s /\ rec s' = rec s /\ events s' = events s /\ chip s' (ro s) = chip s (ro s) /\
       (preval s = PNone -> preval s' = PNone) /\ f_mode s' = Dual /\ f_ro s' = ro s /\ dirty s' = false)
    (fun s' => f_on s' = f_on s /\ acc s' = acc s) s.
Proof.
  intro s. unfold init_protection. apply wp_bind.
  eapply wp_retry with (I := pre_protect s).
  - intros s1 H1.
    assert (Er : ro s1 = ro s).
    { unfold ro. destruct H1 as (_ & _ & _ & A & B & _). rewrite A, B. reflexivity. }
    assert (Hc : forall v, (if Bool.eqb (ro s) (negb (ro s)) then v else chip s1 (ro s)) = chip s (ro s)).
    { intro v. rewrite eqb_negb. destruct H1 as (_ & _ & _ & _ & _ & _ & _ & _ & _ & _ & _ & A & _). exact A. }
    destruct H1 as (A1 & A2 & A3 & A4 & A5 & A6 & A7 & A8 & A9 & A10 & A11 & A12 & A13).
    assert (Hp : forall s2,
      f_on s2 = f_on s1 -> acc s2 = acc s1 -> f_rw s2 = f_rw s1 -> nv_ro s2 = nv_ro s1 ->
      ovr s2 = ovr s1 -> byp s2 = byp s1 -> unsup s2 = unsup s1 -> act s2 = act s1 ->
      pend s2 = pend s1 -> rec s2 = rec s1 -> events s2 = events s1 -> chip s2 (ro s) = chip s (ro s) ->
      (preval s = PNone -> preval s2 = PNone) -> pre_protect s s2).
    { intros s2 B1 B2 B3 B4 B5 B6 B7 B8 B9 B10 B11 B12 B13. unfold pre_protect.
      repeat split; auto; congruence. }
    apply wp_andthen, wp_call; cbn [ok];
      [|intros r Hr; rewrite Hr; split; apply Hp; try reflexivity; fields; auto].
    apply wp_bind, wp_get. change (ro (next P C Img s1)) with (ro s1). rewrite Er.
    apply wp_andthen, wp_call_write. intros r v.
    destruct (ok r) eqn:Eo; [|apply Hp; try reflexivity; fields; auto].
    apply wp_andthen, wp_call; cbn [ok];
      [|intros r' Hr; rewrite Hr; split; apply Hp; try reflexivity; fields; auto].
    apply wp_bind, wp_set.
    apply wp_andthen, wp_call; cbn [ok];
      [|intros r' Hr; rewrite Hr; split; apply Hp; try reflexivity; fields; auto].
    apply wp_andthen, wp_call; cbn [ok];
      [|intros r' Hr; rewrite Hr; split; apply Hp; try reflexivity; fields; auto].
    apply wp_call; cbn [ok];
      [|intros r' Hr; rewrite Hr; split; apply Hp; try reflexivity; fields; auto].
    apply wp_set. fields. repeat split; auto; congruence.
  - intros s1 H1. destruct H1 as (A & B & _). auto.
  - unfold pre_protect. repeat split; auto.
Qed.

Lemma config_flash_spec : forall s,
  wp (config_flash _ _ _ o)
    (fun _ s' => s' = w_ro _ _ _ (ro s) (mkSt (chip s) (f_on s) (f_mode s) (f_ro s) (f_rw s) (f_dirty s)
       (acc s) (nv_ro s) (ovr s) (dirty s) (events s) (pfm_dirty s) (preval s) (byp s) (unsup s) (act s)
       (pend s) (rec s) (tick s')))
    (fun s' => f_on s' = f_on s /\ acc s' = acc s) s.
Proof.
  intro s. unfold config_flash.
  eapply wp_retry with (I := fun s' => exists v, s' = w_ro _ _ _ v (mkSt (chip s) (f_on s) (f_mode s)
       (f_ro s) (f_rw s) (f_dirty s) (acc s) (nv_ro s) (ovr s) (dirty s) (events s) (pfm_dirty s)
       (preval s) (byp s) (unsup s) (act s) (pend s) (rec s) (tick s'))).
  - intros s1 [v E]. apply wp_bind, wp_get.
    assert (Er : ro s1 = ro s) by (rewrite E; reflexivity).
    rewrite Er. rewrite E. fields.
    apply wp_call; cbn [ok].
    + reflexivity.
    + intros r Hr. rewrite Hr. split; [exists (ro s)|exists v]; reflexivity.
  - intros s1 [v E]. rewrite E. auto.
  - exists (f_ro s). destruct s. reflexivity.
Qed.

End Steps.
