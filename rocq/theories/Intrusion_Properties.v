(** C70: intrusion detection. *)
From Coq Require Import List Bool.
From Verif Require Import Intrusion_Model Intrusion_Spec.
Import ListNotations.

Lemma run_app : forall a b s, run s (a ++ b) = run (run s a) b.
Proof. intros. apply fold_left_app. Qed.
Lemma run_snoc : forall l o s, run s (l ++ [o]) = snd (step (run s l) o).
Proof. intros. rewrite run_app. reflexivity. Qed.

(** One step, when the manager is initialized *)
Lemma step_data : forall s o, ready s = true ->
  (data (snd (step s o)) = No_intrusion <-> clears (recorded s) o = true \/ (data s = No_intrusion /\ alarms (recorded s) o = false)).
Proof.
  intros s o R. assert (ND : forall v : value, v <> No_intrusion -> (v = No_intrusion <-> (false = true \/ (data s = No_intrusion /\ true = false)))).
  { intros v V. split; [intro; contradiction|intros [H|[_ H]]; discriminate]. }
  assert (KE : data s = No_intrusion <-> false = true \/ (data s = No_intrusion /\ false = false)) by (split; [auto|intros [H|[H _]]; [discriminate|exact H]]).
  assert (YE : No_intrusion = No_intrusion <-> true = true \/ (data s = No_intrusion /\ false = false)) by (split; auto).
  unfold step. destruct o as [p w|a w p|y c p|n p|p]; rewrite ?R.
  - destruct w as [|b], p; cbn; apply ND; discriminate.
  - destruct a as [[|]|]; [exact KE| |exact KE]. destruct w as [|b]; [|exact KE]. destruct p; cbn; [exact YE|exact KE].
  - destruct c; cbn [check clears alarms].
    + destruct (recorded s), p; cbn; (exact KE || exact YE || (apply ND; discriminate)).
    + destruct p; cbn; apply ND; discriminate.
    + destruct y; cbn; [exact KE|]. destruct p; cbn; apply ND; discriminate.
  - destruct n, p; cbn; (exact KE || exact YE || (apply ND; discriminate)).
  - cbn. apply ND. discriminate.
Qed.
Lemma step_not_ready : forall s o, ready s = false -> data s <> No_intrusion -> data (snd (step s o)) <> No_intrusion.
Proof. intros s o R D. unfold step. rewrite R. destruct o; cbn; (exact D || discriminate). Qed.
Lemma not_ready_unknown : forall l b, ready (run (new b) l) = false -> data (run (new b) l) = Unknown.
Proof.
  intros l b. induction l as [|o l IH] using rev_ind; [reflexivity|]. rewrite run_snoc. set (s := run (new b) l) in *. intro R.
  unfold step in *. destruct o as [p w|a w p|y c p|n p|p]; [| | | |reflexivity]; (destruct (ready s) eqn:E; [exfalso|exact (IH eq_refl)]); cbn in R.
  - destruct w; cbn in R; congruence.
  - destruct a as [[|]|]; try destruct w; cbn in R; congruence.
  - destruct c; cbn in R; [destruct (recorded s)| |destruct y]; cbn in R; congruence.
  - destruct n; cbn in R; congruence.
Qed.

(** The reported state is "no intrusion" exactly if a reset, a check or a notification has found so, with its measurement done, and since
    then there was no intrusion, no check that found one or failed, and no restart. *)
Theorem C70_healthy : forall b l, data (run (new b) l) = No_intrusion <->
  exists l1 o l2, l = l1 ++ o :: l2 /\ ready (run (new b) l1) = true /\ clears (recorded (run (new b) l1)) o = true /\
    forall m1 x m2, l2 = m1 ++ x :: m2 -> alarms (recorded (run (new b) (l1 ++ o :: m1))) x = false.
Proof.
  intros b l. split.
  - induction l as [|o l IH] using rev_ind; [discriminate|]. intro D. rewrite run_snoc in D.
    destruct (ready (run (new b) l)) eqn:R.
    2:{ exfalso. apply (step_not_ready (run (new b) l) o R); [|exact D]. rewrite (not_ready_unknown l b R). discriminate. }
    apply (step_data _ _ R) in D. destruct D as [C|[D A]].
    + exists l, o, []. split; [reflexivity|]. split; [exact R|]. split; [exact C|]. intros m1 x m2 E. destruct m1; discriminate.
    + destruct (IH D) as (l1 & o1 & l2 & -> & R1 & C1 & Q). exists l1, o1, (l2 ++ [o]). split; [rewrite <- app_assoc; reflexivity|].
      split; [exact R1|]. split; [exact C1|]. intros m1 x m2 E.
      destruct m2 as [|y m2 _] using rev_ind.
      * apply app_inj_tail in E. destruct E as [<- <-]. exact A.
      * change (m1 ++ x :: m2 ++ [y]) with (m1 ++ (x :: m2) ++ [y]) in E. rewrite app_assoc in E. apply app_inj_tail in E. destruct E as [-> _].
        apply (Q m1 x m2). reflexivity.
  - intros (l1 & o & l2 & -> & R & C & Q). change (l1 ++ o :: l2) with (l1 ++ [o] ++ l2) in *. rewrite app_assoc, run_app.
    assert (R1 : ready (run (new b) (l1 ++ [o])) = true /\ data (run (new b) (l1 ++ [o])) = No_intrusion).
    { rewrite run_snoc. split; [|apply (step_data _ _ R); left; exact C]. set (s := run (new b) l1) in *. unfold step.
      destruct o as [p w|a w p|y c p|n p|p]; rewrite ?R; cbn in C; try discriminate.
      - destruct a as [[|]|], w; cbn; exact R || discriminate.
      - destruct c; cbn in *; [destruct (recorded s)| |]; cbn; exact R || discriminate.
      - destruct n; cbn; exact R. }
    assert (Q' : forall m1 x m2, l2 = m1 ++ x :: m2 -> alarms (recorded (run (run (new b) (l1 ++ [o])) m1)) x = false).
    { intros m1 x m2 E. rewrite <- run_app, <- app_assoc. exact (Q m1 x m2 E). }
    destruct R1 as [R1 D1]. revert R1 D1 Q'. generalize (run (new b) (l1 ++ [o])). clear. induction l2 as [|x l2 IH]; intros s R D Q; [exact D|].
    cbn [run fold_left]. change (data (run (snd (step s x)) l2) = No_intrusion). pose proof (Q [] x l2 eq_refl) as A. cbn in A. apply IH.
    + unfold step. destruct x as [p w|a w p|y c p|n p|p]; rewrite ?R; try discriminate A.
      * destruct a as [[|]|], w; cbn; exact R.
      * destruct c; cbn in *; [destruct (recorded s)| |destruct y]; cbn; exact R || discriminate.
      * destruct n; cbn; exact R.
    + apply (step_data _ _ R). right. split; [exact D|exact A].
    + intros m1 y m2 E. apply (Q (x :: m1) y m2). rewrite E. reflexivity.
Qed.
Print Assumptions C70_healthy.

(** When the state is reported as "no intrusion", the PCR says the same. *)
Theorem C70_measured : forall b l, data (run (new b) l) = No_intrusion -> digest (run (new b) l) = No_intrusion.
Proof.
  intros b l. induction l as [|o l IH] using rev_ind; [discriminate|]. rewrite run_snoc. set (s := run (new b) l) in *. unfold step.
  destruct o as [p w|a w p|y c p|n p|p]; [| | | |discriminate]; (destruct (ready s); [|exact IH]); cbn.
  - destruct w, p; cbn; discriminate.
  - destruct a as [[|]|]; try exact IH. destruct w; [|exact IH]. destruct p; cbn; [reflexivity|exact IH].
  - destruct c; cbn; [destruct (recorded s)| |destruct y]; destruct p; cbn; try discriminate; try reflexivity; exact IH.
  - destruct n, p; cbn; try discriminate; try reflexivity; exact IH.
Qed.
Print Assumptions C70_measured.

(** When all measurements work, the PCR always says what is reported. *)
Definition pcr_works (o : op) : bool := match o with Handle p _ | Reset _ _ p | Check _ _ p | Notify _ p | Restart p => p end.
Theorem C70_consistent : forall b l, Forall (fun o => pcr_works o = true) l -> digest (run (new b) l) = data (run (new b) l).
Proof.
  intros b l. induction l as [|o l IH] using rev_ind; [reflexivity|]. intro F. apply Forall_app in F. destruct F as [F1 F2]. specialize (IH F1).
  inversion F2 as [|? ? W _]; subst. rewrite run_snoc. set (s := run (new b) l) in *. unfold step.
  destruct o as [p w|a w p|y c p|n p|p]; cbn in W; subst p; [| | | |reflexivity]; (destruct (ready s); [|exact IH]); cbn.
  - destruct w; reflexivity.
  - destruct a as [[|]|]; try exact IH. destruct w; [reflexivity|exact IH].
  - destruct c; cbn; [destruct (recorded s)| |destruct y]; try reflexivity; exact IH.
  - destruct n; reflexivity.
Qed.
Print Assumptions C70_consistent.

(** Without asynchronous notifications, and if intrusions can be recorded, "no intrusion" is never reported while an intrusion is recorded. *)
Theorem C70_recorded : forall b l, Forall sound l -> data (run (new b) l) = No_intrusion -> recorded (run (new b) l) = false.
Proof.
  intros b l. induction l as [|o l IH] using rev_ind; [discriminate|]. intro F. apply Forall_app in F. destruct F as [F1 F2]. specialize (IH F1).
  inversion F2 as [|? ? W _]; subst. rewrite run_snoc. set (s := run (new b) l) in *. unfold step.
  destruct o as [p w|a w p|y c p|n p|p]; cbn in W; [| | |destruct W|discriminate]; (destruct (ready s); [|exact IH]); cbn.
  - destruct w, p; cbn; discriminate.
  - destruct a as [[|]|]; try exact IH. destruct w as [|[|]]; [intros _; destruct p; reflexivity|reflexivity|exact IH].
  - destruct c; cbn; [destruct (recorded s) eqn:RE| |destruct y]; destruct p; cbn; try discriminate; try exact IH; auto.
Qed.
Print Assumptions C70_recorded.

(** A recorded intrusion stays, over restarts and failures, until a reset; until then "no intrusion" is not reported. *)
Theorem C70_persists : forall b l1 p l2, ready (run (new b) l1) = true -> Forall (fun o => sound o /\ is_reset o = false) l2 ->
  recorded (run (new b) (l1 ++ Handle p Done :: l2)) = true /\ data (run (new b) (l1 ++ Handle p Done :: l2)) <> No_intrusion.
Proof.
  intros b l1 p l2 R F. rewrite run_app. cbn [run fold_left]. set (s := run (new b) l1) in *. change (fold_left (fun s o => snd (step s o)) l2 (snd (step s (Handle p Done)))) with (run (snd (step s (Handle p Done))) l2).
  assert (I0 : recorded (snd (step s (Handle p Done))) = true /\ data (snd (step s (Handle p Done))) <> No_intrusion) by (unfold step; rewrite R; destruct p; cbn; split; (reflexivity || discriminate)).
  revert I0. generalize (snd (step s (Handle p Done))). clear - F. induction F as [|o l [S NR] F IH]; intros s I0; [exact I0|]. apply IH.
  destruct I0 as [RE D]. unfold step. destruct o as [p w|a w p|y c p|n p|p]; [|discriminate| |destruct S|cbn; split; [exact RE|discriminate]]; (destruct (ready s); [|split; assumption]).
  - destruct w as [|[|]], p; cbn; split; (reflexivity || discriminate || exact RE).
  - destruct c; cbn; [rewrite RE| |destruct y]; destruct p; cbn; split; (exact RE || discriminate || exact D).
Qed.
Print Assumptions C70_persists.

(** A reset does nothing while an intrusion is active or this is not known; if it succeeds, nothing is recorded, reported or measured any more. *)
Theorem C70_reset : forall s a w p, ready s = true ->
  (a <> Some false -> step s (Reset a w p) = (false, s)) /\
  (fst (step s (Reset a w p)) = true -> recorded (snd (step s (Reset a w p))) = false /\ data (snd (step s (Reset a w p))) = No_intrusion /\ digest (snd (step s (Reset a w p))) = No_intrusion).
Proof.
  intros s a w p R. unfold step. rewrite R. split.
  - intro NA. destruct a as [[|]|]; [reflexivity|destruct (NA eq_refl)|reflexivity].
  - destruct a as [[|]|]; [discriminate| |discriminate]. destruct w as [|[|]]; [|discriminate|discriminate]. destruct p; cbn; [auto|discriminate].
Qed.
Print Assumptions C70_reset.

(** An intrusion that is handled is reported in any case; success means that it is recorded, reported and measured. *)
Theorem C70_handled : forall s p w, ready s = true ->
  data (snd (step s (Handle p w))) = Intrusion /\
  (fst (step s (Handle p w)) = true <-> p = true /\ w = Done) /\
  (fst (step s (Handle p w)) = true -> recorded (snd (step s (Handle p w))) = true /\ digest (snd (step s (Handle p w))) = Intrusion).
Proof. intros s p w R. unfold step. rewrite R. destruct p, w as [|[|]]; cbn; repeat split; (discriminate || reflexivity || (intros (X & Y); discriminate) || auto). Qed.
Print Assumptions C70_handled.

(** A check that succeeds has reported and measured what is recorded, or left everything to the notification. *)
Theorem C70_checked : forall s y c p, ready s = true -> fst (step s (Check y c p)) = true ->
  let s' := snd (step s (Check y c p)) in
  recorded s' = recorded s /\
  (c = Answers /\ data s' = (if recorded s then Intrusion else No_intrusion) /\ digest s' = data s' \/ c = Deferred /\ y = true /\ s' = s).
Proof. intros s y c p R. unfold step. rewrite R. destruct c; cbn; [destruct (recorded s) eqn:E| |destruct y]; destruct p; cbn; try discriminate; rewrite ?E; auto. Qed.
Print Assumptions C70_checked.
Example handled_and_checked : ready (run (new false) [Restart true]) = true /\ fst (step (run (new false) [Restart true]) (Handle true Done)) = true /\
  fst (step (run (new false) [Restart true]) (Check true Answers true)) = true /\ fst (step (run (new false) [Restart true]) (Handle true (Failed true))) = false.
Proof. repeat split. Qed.

(** ** Concrete cases *)
Example reported : map (fun l => data (run (new false) l)) [[Restart true]; [Restart true; Check false Answers true]; [Restart true; Handle true Done; Restart true; Check false Answers true];
    [Restart true; Handle true Done; Reset (Some true) Done true]; [Restart true; Handle true Done; Reset (Some false) Done true]; [Restart true; Check false Answers true; Check false Fails false]] =
  [Unknown; No_intrusion; Intrusion; Intrusion; No_intrusion; Unknown].
Proof. reflexivity. Qed.
Example sound_met : Forall (fun o => sound o /\ is_reset o = false) [Restart true; Check false Answers true; Handle false (Failed true)] /\ ready (run (new false) [Restart true]) = true.
Proof. repeat constructor. Qed.

(** If an intrusion cannot be recorded, the next check reports that there was none (intrusion_manager.c:58, 129). *)
Theorem C70_lost_refuted : exists l, data (run (new false) l) = Intrusion /\ data (run (new false) (l ++ [Check false Answers true])) = No_intrusion /\ Forall (fun o => is_reset o = false) l.
Proof. exists [Restart true; Handle true (Failed false)]. repeat split; repeat constructor. Qed.
Print Assumptions C70_lost_refuted.

(** With asynchronous checks, the answer to a check from before an intrusion hides the intrusion although it is recorded: notifications are
    applied in the order in which they come (intrusion_manager_async.c:48-52). *)
Theorem C70_stale_refuted : exists l1 l2, recorded (run (new false) l1) = false /\ recorded (run (new false) (l1 ++ l2)) = true /\ data (run (new false) (l1 ++ l2)) = No_intrusion /\
  l1 = [Restart true; Check true Deferred true] /\ l2 = [Handle true Done; Notify On_no_intrusion true].
Proof. exists [Restart true; Check true Deferred true], [Handle true Done; Notify On_no_intrusion true]. repeat split. Qed.
Print Assumptions C70_stale_refuted.

(** If the measurement of an intrusion fails, the PCR goes on saying that there was none, although the data beside it says otherwise. *)
Theorem C70_digest_refuted : exists l, data (run (new false) l) = Intrusion /\ recorded (run (new false) l) = true /\ digest (run (new false) l) = No_intrusion.
Proof. exists [Restart true; Check false Answers true; Handle false Done]. repeat split. Qed.
Print Assumptions C70_digest_refuted.

