(** C75: recovery of a BMC that does not boot. *)
From Coq Require Import List ZArith Lia Bool Arith ZifyBool ZifyNat.
From Verif Require Import BmcRecovery_Model BmcRecovery_Spec.
Import ListNotations.

Definition rel_phase (s : state) (p : phase) : Prop :=
  match s, p with
  | RUNNING, Up | IN_RESET, Down | EXIT_RESET, Leaving | ROLLBACK_DONE, Answered => True
  | _, _ => False
  end.

Definition rel_rung (min num : Z) (skip : bool) (g : rung) : Prop :=
  match g with
  | Resets n => skip = false /\ num = (min - Z.of_nat n)%Z
  | Rollbacks => skip = false /\ num = (min + 1)%Z
  | Images => skip = false /\ (min + 2 <= num)%Z
  | OnlyRollback => skip = true /\ (min + 2 <= num)%Z
  end.

Lemma rel_bottom : forall min, rel_rung min 0 false (bottom min).
Proof.
  intros min. unfold bottom. destruct (0 <=? min)%Z eqn:E; [cbn; lia|].
  destruct (min =? -1)%Z eqn:F; cbn; lia.
Qed.

Lemma cs1_climb : forall min num skip g a, rel_rung min num skip g ->
  let '(g', c, l) := climb g a in
  let '(num', skip', status, acts) := respond min num skip a in
  rel_rung min (num' + 1) skip' g' /\ status = c /\ acts = with_pulse c l.
Proof.
  intros min num skip g a R. unfold respond. destruct g as [[|n]| | |]; cbn [rel_rung] in R; destruct R as (-> & R).
  - cbn [climb]. unfold climb_rw, climb_rollback, climb_image, recover, is_validation_failure.
    replace (num <? min)%Z with false by lia. replace (num =? min)%Z with true by lia.
    change (false || ?x) with x. change (negb false && ?x) with x.
    destruct (a_rw a) eqn:ER; cbn [no_rw orb]; cbv iota;
      try (replace (num =? min + 1)%Z with false by lia; replace (min + 2 <=? num)%Z with false by lia;
           cbn; repeat split; lia);
      replace (num + 1 =? min + 1)%Z with true by lia;
      destruct (a_rollback a) eqn:EB; cbn [no_rollback orb]; cbv iota;
      try (replace (min + 2 <=? num + 1)%Z with false by lia; cbn; repeat split; lia);
      replace (min + 2 <=? num + 1 + 1)%Z with true by lia;
      destruct (a_image a) eqn:EI; cbn; repeat split; lia.
  - cbn [climb]. replace (num <? min)%Z with true by lia. cbn. repeat split; lia.
  - cbn [climb]. unfold climb_image, recover.
    replace (num <? min)%Z with false by lia. replace (num =? min)%Z with false by lia.
    change (false || ?x) with x. change (negb false && ?x) with x.
    replace (num =? min + 1)%Z with false by lia. replace (min + 2 <=? num)%Z with true by lia.
    destruct (a_image a); cbn; repeat split; lia.
  - cbn [climb]. unfold climb_rollback, climb_image, recover, is_validation_failure.
    replace (num <? min)%Z with false by lia. replace (num =? min)%Z with false by lia.
    change (false || ?x) with x. change (negb false && ?x) with x.
    replace (num =? min + 1)%Z with true by lia.
    destruct (a_rollback a) eqn:EB; cbn [no_rollback orb]; cbv iota;
      try (replace (min + 2 <=? num)%Z with false by lia; cbn; repeat split; lia);
      replace (min + 2 <=? num + 1)%Z with true by lia;
      destruct (a_image a) eqn:EI; cbn; repeat split; lia.
  - cbn [climb]. unfold recover, is_validation_failure.
    replace (num <? min)%Z with false by lia. replace (num =? min)%Z with false by lia.
    change (true || ?x) with true. change (negb true && ?x) with false.
    destruct (a_rollback a); cbn; repeat split; lia.
Qed.

Definition rel (min : Z) (r : recovery) (s : phase * rung) : Prop :=
  rel_phase (r_state r) (fst s) /\ rel_rung min (r_num_wdt r) (r_skip r) (snd s).

Lemma step_ladder : forall min r s e, rel min r s ->
  rel min (fst (step min r e)) (fst (ladder_step min s e)) /\
  snd (step min r e) = snd (ladder_step min s e).
Proof.
  intros min [st num skip] [p g] e (P & R). cbn [r_state r_num_wdt r_skip fst snd] in *.
  destruct e as [| | |a]; try (destruct st, p; try contradiction; split; try reflexivity; split; (exact I || exact R)).
  destruct st, p; try contradiction; try (split; try reflexivity; split; (exact I || exact R));
    cbn [step on_host_cs1 ladder_step r_state r_num_wdt r_skip].
  all: assert (R' : rel_rung min (if a_expired a then 0%Z else num) (if a_expired a then false else skip)
          (if a_expired a then bottom min else g)) by (destruct (a_expired a); [apply rel_bottom|exact R]);
    pose proof (cs1_climb min _ _ _ a R') as C;
    destruct (climb (if a_expired a then bottom min else g) a) as [[g' c] l];
    destruct (respond min (if a_expired a then 0%Z else num) (if a_expired a then false else skip) a)
      as [[[num' skip'] st'] acts'];
    destruct C as (C1 & -> & ->); cbn [fst snd]; (split; [split; [exact I|exact C1]|]);
    destruct c; reflexivity.
Qed.

Lemma run_ladder : forall min h r s, rel min r s -> snd (run min r h) = ladder min s h.
Proof.
  intros min h. induction h as [|e h IH]; intros r s R; [reflexivity|]. cbn [run ladder].
  pose proof (step_ladder min r s e R) as (A & B).
  destruct (step min r e) as [r' o]. destruct (ladder_step min s e) as [s' o']. cbn [fst snd] in A, B. subst o'.
  specialize (IH r' s' A). destruct (run min r' h) as [r'' os]. cbn [snd] in *. rewrite IH. reflexivity.
Qed.

(** Every history is answered as the ladder says, for every setting. *)
Theorem C75_ladder : forall min in_reset h,
  snd (run min (init in_reset) h) = ladder min (if in_reset then Down else Up, bottom min) h.
Proof.
  intros min in_reset h. apply run_ladder. split; [destruct in_reset; exact I|apply rel_bottom].
Qed.
Print Assumptions C75_ladder.

(** What has to come before an operation. *)
Definition after (min : nat) (pre : list action) (x : action) : Prop :=
  match x with
  | RecoverRw => pre = repeat Pulse min
  | Rollback => exists a, pre = repeat Pulse min ++ RecoverRw :: a
  | ApplyImage => exists a b, pre = repeat Pulse min ++ RecoverRw :: a ++ Rollback :: b
  | _ => True
  end.

Definition ordered (min : nat) (l : list action) : Prop :=
  forall pre x post, l = pre ++ x :: post -> after min pre x.

Lemma ordered_snoc : forall min l x, ordered min l -> after min l x -> ordered min (l ++ [x]).
Proof.
  intros min l x O A pre y post E.
  destruct post as [|z post] using rev_ind.
  - apply app_inj_tail in E. destruct E as (-> & ->). exact A.
  - rewrite app_comm_cons, app_assoc in E. apply app_inj_tail in E. destruct E as (-> & _).
    apply (O pre y post). reflexivity.
Qed.

Definition stage (min : nat) (g : rung) (acc : list action) : Prop :=
  match g with
  | Resets n => n <= min /\ acc = repeat Pulse (min - n)
  | Rollbacks => exists a, acc = repeat Pulse min ++ RecoverRw :: a
  | _ => exists a b, acc = repeat Pulse min ++ RecoverRw :: a ++ Rollback :: b
  end.

Lemma after_pulse : forall min l, after min l Pulse.
Proof. exact (fun _ _ => I). Qed.

Lemma stage_more : forall min g acc x, (forall n, g <> Resets n) -> stage min g acc -> stage min g (acc ++ [x]).
Proof.
  intros min g acc x G S. destruct g as [n| | |]; cbn [stage] in *.
  - destruct (G n eq_refl).
  - destruct S as (a & b & ->). exists a, (b ++ [x]).
    rewrite <- app_assoc. cbn [app]. rewrite <- app_assoc. reflexivity.
  - destruct S as (a & ->). exists (a ++ [x]). rewrite <- app_assoc. reflexivity.
  - destruct S as (a & b & ->). exists a, (b ++ [x]).
    rewrite <- app_assoc. cbn [app]. rewrite <- app_assoc. reflexivity.
Qed.

Definition good (min : nat) (g : rung) (acc : list action) : Prop := ordered min acc /\ stage min g acc.

Lemma good_pulse : forall min g acc c, good min g acc -> (forall n, g <> Resets n) ->
  good min g (acc ++ with_pulse c []).
Proof.
  intros min g acc c (O & S) G. unfold with_pulse.
  assert (X : good min g (acc ++ [Pulse])).
  { split; [apply ordered_snoc; [exact O|exact I]|apply stage_more; assumption]. }
  destruct c; try exact X. rewrite app_nil_r. split; assumption.
Qed.

Lemma with_pulse_app : forall c l, with_pulse c l = l ++ with_pulse c [].
Proof. intros [] l; cbn [with_pulse app]; try reflexivity. rewrite app_nil_r. reflexivity. Qed.

Lemma good_image : forall min acc a g c l, (exists a b, acc = repeat Pulse min ++ RecoverRw :: a ++ Rollback :: b) ->
  ordered min acc -> climb_image a = (g, c, l) -> good min g (acc ++ with_pulse c l) /\ (forall n, g <> Resets n).
Proof.
  intros min acc a g c l S O E. unfold climb_image in E.
  assert (G : forall n, g <> Resets n) by (intros n; destruct (no_image (a_image a)); congruence).
  split; [|exact G]. rewrite with_pulse_app, app_assoc. apply good_pulse; [|exact G].
  assert (l = [ApplyImage]) by congruence. subst l.
  split; [apply ordered_snoc; [exact O|exact S]|].
  apply stage_more; [exact G|]. destruct g; [destruct (G _ eq_refl)|exact S| |exact S].
  destruct (no_image (a_image a)); discriminate E.
Qed.

Lemma good_rollback : forall min acc a g c l, (exists a, acc = repeat Pulse min ++ RecoverRw :: a) ->
  ordered min acc -> climb_rollback a = (g, c, l) -> good min g (acc ++ with_pulse c l) /\ (forall n, g <> Resets n).
Proof.
  intros min acc a g c l S O E. unfold climb_rollback in E.
  assert (O' : ordered min (acc ++ [Rollback])) by (apply ordered_snoc; [exact O|exact S]).
  assert (S' : exists a b, acc ++ [Rollback] = repeat Pulse min ++ RecoverRw :: a ++ Rollback :: b).
  { destruct S as (x & ->). exists x, []. rewrite <- app_assoc. reflexivity. }
  destruct (no_rollback (a_rollback a)).
  - destruct (climb_image a) as [[g0 c0] l0] eqn:E0. injection E as <- <- <-.
    pose proof (good_image min _ a g0 c0 l0 S' O' E0) as X.
    rewrite with_pulse_app, <- app_assoc in X. rewrite with_pulse_app. exact X.
  - injection E as <- <- <-. split; [|discriminate]. rewrite with_pulse_app, app_assoc.
    apply good_pulse; [|discriminate]. split; assumption.
Qed.

Lemma good_climb : forall min acc a g g' c l, good min g acc -> climb g a = (g', c, l) ->
  good min g' (acc ++ with_pulse c l).
Proof.
  intros min acc a g g' c l (O & S) E. destruct g as [[|n]| | |]; cbn [climb stage] in *.
  - destruct S as (_ & ->). rewrite Nat.sub_0_r in *. unfold climb_rw in E.
    assert (O' : ordered min (repeat Pulse min ++ [RecoverRw])) by (apply ordered_snoc; [exact O|reflexivity]).
    destruct (no_rw (a_rw a)).
    + destruct (climb_rollback a) as [[g0 c0] l0] eqn:E0. injection E as <- <- <-.
      destruct (good_rollback min (repeat Pulse min ++ [RecoverRw]) a g0 c0 l0) as (X & _); auto.
      { exists []. reflexivity. }
      rewrite with_pulse_app, <- app_assoc in X. rewrite with_pulse_app. exact X.
    + injection E as <- <- <-. rewrite with_pulse_app, app_assoc. apply good_pulse; [|discriminate].
      split; [exact O'|]. exists []. reflexivity.
  - injection E as <- <- <-. destruct S as (L & ->). cbn [with_pulse].
    split; [apply ordered_snoc; [exact O|exact I]|]. split; [lia|].
    replace (min - n) with (S (min - S n)) by lia. symmetry. apply repeat_cons.
  - apply (good_image min acc a g' c l S O E).
  - apply (good_rollback min acc a g' c l S O E).
  - injection E as <- <- <-. rewrite with_pulse_app, app_assoc.
    apply good_pulse; [|discriminate]. split.
    + apply ordered_snoc; [exact O|]. destruct S as (x & b & ->). exists (x ++ Rollback :: b). reflexivity.
    + apply stage_more; [discriminate|exact S].
Qed.

Lemma on_host_climb : forall g a g' c l, climb g a = (g', c, l) ->
  on_host (with_pulse c l) = with_pulse c l /\ with_pulse c l <> [].
Proof.
  intros g a g' c l E.
  assert (X : on_host l = l /\ l <> []).
  { destruct g as [[|n]| | |]; cbn [climb] in E; unfold climb_rw, climb_rollback, climb_image in E;
      repeat match type of E with context[if ?b then _ else _] => destruct b end;
      injection E as <- <- <-; split; try reflexivity; discriminate. }
  destruct X as (X & Y). rewrite with_pulse_app. split.
  - unfold on_host in *. rewrite filter_app, X. f_equal. destruct c; reflexivity.
  - destruct l; [congruence|discriminate].
Qed.

Lemma bottom_nat : forall min, bottom (Z.of_nat min) = Resets min.
Proof. intros min. unfold bottom. replace (0 <=? Z.of_nat min)%Z with true by lia. rewrite Nat2Z.id. reflexivity. Qed.

Lemma good_bottom : forall min, good min (Resets min) [].
Proof.
  intros min. split.
  - intros pre x post E. destruct pre; discriminate E.
  - split; [lia|]. rewrite Nat.sub_diag. reflexivity.
Qed.

Lemma episode_good : forall min h s acc, good min (snd s) acc ->
  ordered min (episode acc h (ladder (Z.of_nat min) s h)).
Proof.
  intros min h. induction h as [|e h IH]; intros [p g] acc G; [exact (proj1 G)|].
  cbn [ladder]. destruct (ladder_step (Z.of_nat min) (p, g) e) as [s' [l c]] eqn:E. cbn [episode].
  assert (Q : on_host l = [] /\ snd s' = g \/
    exists a g0 c0 l0, e = Cs1 a /\ on_host l = l /\ l <> [] /\ l = with_pulse c0 l0 /\ snd s' = g0 /\
      climb (if a_expired a then bottom (Z.of_nat min) else g) a = (g0, c0, l0)).
  { cbn [ladder_step] in E.
    destruct e as [| | |a]; [destruct p; injection E as <- <- <-; left; split; reflexivity..|].
    destruct p; try (injection E as <- <- <-; left; split; reflexivity); right;
      destruct (climb (if a_expired a then bottom (Z.of_nat min) else g) a) as [[g0 c0] l0] eqn:F;
      injection E as <- <- <-; destruct (on_host_climb _ _ _ _ _ F) as (X & Y);
      exists a, g0, c0, l0; repeat split; assumption. }
  destruct Q as [(Q1 & Q2)|(a & g0 & c0 & l0 & -> & Q1 & Q2 & Q3 & Q4 & Q5)].
  - rewrite Q1, app_nil_r. destruct e; apply IH; rewrite Q2; exact G.
  - rewrite Q1. destruct l as [|x l]; [congruence|]. apply IH. rewrite Q3, Q4.
    apply (good_climb min _ a _ _ _ _) with (2 := Q5).
    destruct (a_expired a); [rewrite bottom_nat; apply good_bottom|exact G].
Qed.

(** In order: since the timeout last expired, read/write data is restored
    only after the configured number of resets and only once, a rollback is
    tried only after that, and the recovery image is applied only after a
    rollback was tried. *)
Theorem C75_order : forall min in_reset h,
  ordered min (episode [] h (snd (run (Z.of_nat min) (init in_reset) h))).
Proof.
  intros min in_reset h. rewrite C75_ladder. apply episode_good. cbn [snd]. rewrite bottom_nat. apply good_bottom.
Qed.
Print Assumptions C75_order.

Definition counts (min : nat) (g : rung) (n : nat) (m : bool) : Prop :=
  match g with
  | Resets k => k <= min /\ n = min - k /\ m = false
  | Rollbacks => n = min + 1 /\ m = false
  | Images => min < n /\ m = false
  | OnlyRollback => min < n /\ m = true
  end.

Lemma counts_climb : forall min g n m a g' c l, counts min g n m -> climb g a = (g', c, l) ->
  counts min g' (S n)
    (m || existsb (fun x => match x with ApplyImage => no_image (a_image a) | _ => false end) (with_pulse c l)).
Proof.
  intros min g n m a g' c l C E.
  rewrite with_pulse_app, existsb_app.
  assert (X : existsb (fun x => match x with ApplyImage => no_image (a_image a) | _ => false end)
    (with_pulse c []) = false) by (destruct c; reflexivity).
  rewrite X, orb_false_r.
  destruct g as [[|k]| | |]; cbn [climb] in E; unfold climb_rw, climb_rollback, climb_image in E; cbn [counts] in C;
    destruct (no_image (a_image a)) eqn:NI;
    repeat match type of E with context[if ?b then _ else _] => destruct b end;
    injection E as <- <- <-; cbn [existsb orb counts]; rewrite ?NI, ?orb_false_r, ?orb_true_r; lia.
Qed.

Lemma ladder_app : forall min h s e, exists s',
  (forall h', ladder min s (h ++ h') = ladder min s h ++ ladder min s' h') /\
  ladder min s (h ++ [e]) = ladder min s h ++ [snd (ladder_step min s' e)].
Proof.
  intros min h. induction h as [|x h IH]; intros s e.
  - exists s. split; [reflexivity|]. cbn [app ladder]. destruct (ladder_step min s e); reflexivity.
  - cbn [app ladder]. destruct (ladder_step min s x) as [s1 o]. destruct (IH s1 e) as (s' & A & B).
    exists s'. split; [intros h'; rewrite A; reflexivity|rewrite B; reflexivity].
Qed.

Lemma counts_run : forall min h s n m, counts min (snd s) n m -> exists s',
  (forall e, ladder (Z.of_nat min) s (h ++ [e]) =
     ladder (Z.of_nat min) s h ++ [snd (ladder_step (Z.of_nat min) s' e)]) /\
  counts min (snd s') (answered n h (ladder (Z.of_nat min) s h)) (missing m h (ladder (Z.of_nat min) s h)).
Proof.
  intros min h. induction h as [|e h IH]; intros [p g] n m C.
  - exists (p, g). split; [|exact C]. intros e. cbn [app ladder].
    destruct (ladder_step (Z.of_nat min) (p, g) e); reflexivity.
  - cbn [app ladder]. destruct (ladder_step (Z.of_nat min) (p, g) e) as [s' [l c]] eqn:E. cbn [answered missing].
    assert (Q : on_host l = [] /\ snd s' = g \/
      exists a g0 c0 l0, e = Cs1 a /\ on_host l = l /\ l <> [] /\ l = with_pulse c0 l0 /\ snd s' = g0 /\
        climb (if a_expired a then bottom (Z.of_nat min) else g) a = (g0, c0, l0)).
    { cbn [ladder_step] in E.
      destruct e as [| | |a]; [destruct p; injection E as <- <- <-; left; split; reflexivity..|].
      destruct p; try (injection E as <- <- <-; left; split; reflexivity); right;
        destruct (climb (if a_expired a then bottom (Z.of_nat min) else g) a) as [[g0 c0] l0] eqn:F;
        injection E as <- <- <-; destruct (on_host_climb _ _ _ _ _ F) as (X & Y);
        exists a, g0, c0, l0; repeat split; assumption. }
    destruct Q as [(Q1 & Q2)|(a & g0 & c0 & l0 & -> & Q1 & Q2 & Q3 & Q4 & Q5)].
    + assert (C' : counts min (snd s') n m) by (rewrite Q2; exact C).
      destruct (IH s' n m C') as (t & A & B). exists t. split; [intros e'; rewrite A; reflexivity|].
      rewrite Q1. destruct e; exact B.
    + rewrite Q1. destruct l as [|x l]; [congruence|].
      assert (C0 : counts min (if a_expired a then bottom (Z.of_nat min) else g)
        (if a_expired a then 0 else n) (if a_expired a then false else m)).
      { destruct (a_expired a); [|exact C]. rewrite bottom_nat. cbn. lia. }
      pose proof (counts_climb _ _ _ _ _ _ _ _ C0 Q5) as C1. rewrite <- Q3, <- Q4 in C1.
      destruct (IH s' _ _ C1) as (t & A & B). exists t. split; [intros e'; rewrite A; reflexivity|].
      destruct (a_expired a); exact B.
Qed.

Lemma run_length : forall min h r, length (snd (run min r h)) = length h.
Proof.
  intros min h. induction h as [|e h IH]; intros r; [reflexivity|]. cbn [run].
  destruct (step min r e) as [r' o]. specialize (IH r'). destruct (run min r' h). cbn in *. lia.
Qed.

(** A host that keeps failing gets to the recovery image: with the timeout
    not expired, after two failures more than there are plain resets every
    failure is answered with the image, unless the image was found missing
    since the timeout last expired; then a rollback is tried every time. *)
Theorem C75_reaches_image : forall min in_reset h a os l c,
  snd (run (Z.of_nat min) (init in_reset) (h ++ [Cs1 a])) = os ++ [(l, c)] ->
  on_host l <> [] -> a_expired a = false -> min + 2 <= answered 0 h os ->
  if missing false h os then exists l', l = Rollback :: l' else In ApplyImage l.
Proof.
  intros min in_reset h a os l c E NE X N. rewrite C75_ladder, bottom_nat in E.
  assert (C0 : counts min (snd (if in_reset then Down else Up, Resets min)) 0 false) by (cbn; lia).
  destruct (counts_run min h _ 0 false C0) as (s' & A & B). rewrite A in E. apply app_inj_tail in E.
  destruct E as (E1 & E2). rewrite E1 in B. destruct s' as [p g]. cbn [snd] in B. cbn [ladder_step] in E2.
  rewrite X in E2.
  assert (Q : exists g' c' l', climb g a = (g', c', l') /\ l = with_pulse c' l').
  { destruct p; try (injection E2 as <- <-; destruct (NE eq_refl)); destruct (climb g a) as [[g' c'] l'];
      injection E2 as <- <-; exists g', c', l'; split; reflexivity. }
  destruct Q as (g' & c' & l' & Q1 & ->). rewrite with_pulse_app.
  destruct g as [k| | |]; cbn [counts] in B; [lia| |lia|]; destruct B as (_ & ->).
  - cbn [climb] in Q1. unfold climb_image in Q1. injection Q1 as _ _ <-. left. reflexivity.
  - cbn [climb] in Q1. injection Q1 as _ _ <-. eexists. reflexivity.
Qed.
Print Assumptions C75_reaches_image.

(** The result of an operation. *)
Definition result (a : answers) (x : action) : code :=
  match x with RecoverRw => a_rw a | Rollback => a_rollback a | ApplyImage => a_image a | _ => Ok end.

(** No failure goes unanswered: chip select 1 in or after a reset always does
    something to the host, and its last operation either succeeded or was a
    reset of the host.  The status is that of the operation before the reset,
    or that of the timer. *)
Theorem C75_answered : forall min r a r' l c, step min r (Cs1 a) = (r', (l, c)) ->
  (r_state r = IN_RESET \/ r_state r = EXIT_RESET) ->
  (0 <= r_num_wdt r)%Z -> (r_skip r = true -> min + 2 <= r_num_wdt r)%Z ->
  r_state r' = ROLLBACK_DONE /\ on_host l = l /\
  exists l' x, l = l' ++ [x] /\ result a x = Ok /\
    (c = a_timer a \/ exists l'' y, l' = l'' ++ [y] /\ x = Pulse /\ c = result a y /\ c <> Ok).
Proof.
  intros min [st num skip] a r' l c E Hs Hn Hk. cbn [r_state r_num_wdt r_skip] in *.
  set (num0 := if a_expired a then 0%Z else num). set (skip0 := if a_expired a then false else skip).
  assert (G : exists g, rel_rung min num0 skip0 g).
  { unfold num0, skip0. destruct (a_expired a); [exists (bottom min); apply rel_bottom|].
    destruct skip; [exists OnlyRollback; split; [reflexivity|auto]|].
    destruct (Z_lt_le_dec num (min + 1)); [exists (Resets (Z.to_nat (min - num))); cbn; lia|].
    destruct (Z.eq_dec num (min + 1)); [exists Rollbacks; cbn; lia|exists Images; cbn; lia]. }
  destruct G as (g & G). pose proof (cs1_climb min num0 skip0 g a G) as C.
  assert (E' : (let '(n', k', status, acts) := respond min num0 skip0 a in
    (mkRec ROLLBACK_DONE (n' + 1) k', (acts, if is_ok status then a_timer a else status))) = (r', (l, c))).
  { unfold num0, skip0. destruct Hs as [-> | ->]; cbn [step on_host_cs1 r_state r_num_wdt r_skip] in E;
      destruct (respond min (if a_expired a then 0%Z else num) (if a_expired a then false else skip) a)
        as [[[? ?] ?] ?]; exact E. }
  destruct (climb g a) as [[g' c'] l'] eqn:EC. destruct (respond min num0 skip0 a) as [[[n' k'] s'] acts'].
  destruct C as (_ & -> & ->). destruct (on_host_climb _ _ _ _ _ EC) as (X & Y). injection E' as <- <- <-.
  split; [reflexivity|]. split; [exact X|].
  assert (Q : exists l'' y, l' = l'' ++ [y] /\ result a y = c').
  { clear - EC. destruct g as [[|k]| | |]; cbn [climb] in EC; unfold climb_rw, climb_rollback, climb_image in EC;
      repeat match type of EC with context[if ?b then _ else _] => destruct b end; injection EC as _ <- <-.
    all: match goal with
      | |- exists l y, [?u; ?v; ?w] = _ /\ _ => exists [u; v], w
      | |- exists l y, [?u; ?v] = _ /\ _ => exists [u], v
      | |- exists l y, [?u] = _ /\ _ => exists [], u
      end; split; reflexivity. }
  destruct Q as (l'' & y & -> & Q).
  destruct c'; cbn [with_pulse is_ok];
    try (exists (l'' ++ [y]), Pulse; split; [reflexivity|]; split; [reflexivity|]; right;
         exists l'', y; repeat split; [symmetry; exact Q|discriminate]).
  exists l'', y. split; [reflexivity|]. split; [exact Q|]. left. reflexivity.
Qed.
Print Assumptions C75_answered.

(** The hypotheses of C75_answered hold after every history, and the counter
    grows by at most three per event, so it cannot overflow before some 2^29
    failures with the timeout never expiring. *)
Theorem C75_counter : forall min in_reset h, (0 <= min)%Z ->
  let r := fst (run min (init in_reset) h) in
  (0 <= r_num_wdt r <= 3 * Z.of_nat (length h))%Z /\ (r_skip r = true -> min + 2 <= r_num_wdt r)%Z.
Proof.
  intros min in_reset h M. cbv zeta.
  assert (G : forall h r b, (0 <= r_num_wdt r <= b)%Z -> (r_skip r = true -> min + 2 <= r_num_wdt r)%Z ->
    (0 <= r_num_wdt (fst (run min r h)) <= b + 3 * Z.of_nat (length h))%Z /\
    (r_skip (fst (run min r h)) = true -> min + 2 <= r_num_wdt (fst (run min r h)))%Z).
  { clear h. induction h as [|e h IH]; intros r b B K; [cbn [run fst length]; split; [lia|exact K]|].
    cbn [run length]. destruct (step min r e) as [r1 o] eqn:E.
    assert (S1 : (0 <= r_num_wdt r1 <= b + 3)%Z /\ (r_skip r1 = true -> min + 2 <= r_num_wdt r1)%Z).
    { destruct r as [st num skip]. cbn [r_num_wdt r_skip] in B, K.
      assert (Same : r_num_wdt r1 = num /\ r_skip r1 = skip ->
        (0 <= r_num_wdt r1 <= b + 3)%Z /\ (r_skip r1 = true -> min + 2 <= r_num_wdt r1)%Z).
      { intros (-> & ->). split; [lia|exact K]. }
      destruct e as [| | |a]; [destruct st; injection E as <- _; apply Same; split; reflexivity..|].
      assert (Hs : (st = IN_RESET \/ st = EXIT_RESET) \/ (st = RUNNING \/ st = ROLLBACK_DONE)) by (destruct st; auto).
      destruct Hs as [Hs|[-> | ->]]; [|injection E as <- _; apply Same; split; reflexivity..].
      assert (E' : (let '(n', k', status, acts) := respond min (if a_expired a then 0%Z else num)
          (if a_expired a then false else skip) a in
        (mkRec ROLLBACK_DONE (n' + 1) k', (acts, if is_ok status then a_timer a else status))) = (r1, o)).
      { destruct Hs as [-> | ->]; cbn [step on_host_cs1 r_state r_num_wdt r_skip] in E;
          destruct (respond min (if a_expired a then 0%Z else num) (if a_expired a then false else skip) a)
            as [[[? ?] ?] ?]; exact E. }
      clear E Same.
      assert (B' : (0 <= (if a_expired a then 0%Z else num) <= b)%Z) by (destruct (a_expired a); lia).
      assert (K' : ((if a_expired a then false else skip) = true ->
        min + 2 <= if a_expired a then 0%Z else num)%Z) by (destruct (a_expired a); [discriminate|exact K]).
      revert B' K' E'. generalize (if a_expired a then 0%Z else num) (if a_expired a then false else skip).
      clear - M. intros n k B K E. unfold respond in E.
      destruct (n <? min)%Z eqn:L.
      { injection E as <- _. cbn [r_num_wdt r_skip]. split; [lia|]. intros X. specialize (K X). lia. }
      unfold recover in E.
      set (n1 := match a_rw a with NoActiveRwData | RwRecoveryUnsupported => (n + 1)%Z | _ => n end) in E.
      assert (N1 : (n <= n1 <= n + 1)%Z) by (unfold n1; destruct (a_rw a); lia).
      destruct (n =? min)%Z;
        match type of E with context[if ?x then (_ + 1)%Z else _] => destruct x end;
        match type of E with context[k || ?x] => destruct (k || x) end;
        match type of E with context[negb k && ?x] => destruct (negb k && x) eqn:A end;
        injection E as <- _; cbn [r_num_wdt r_skip];
        (split; [lia|]); intros X; destruct (a_image a); destruct k; cbn in A; try discriminate; try (specialize (K eq_refl)); lia. }
    destruct S1 as (S1 & S2). destruct (IH r1 (b + 3)%Z S1 S2) as (I1 & I2).
    destruct (run min r1 h) as [r2 os]. cbn [fst] in *. split; [lia|exact I2]. }
  specialize (G h (init in_reset) 0%Z). cbn [init r_num_wdt r_skip] in G.
  destruct G as (G1 & G2); [lia|discriminate|]. split; [lia|exact G2].
Qed.
Print Assumptions C75_counter.

(** A boot is judged right whatever came before: chip select 0 after a reset
    leaves the host alone and the manager watching for the next reset; chip
    select 1 after a reset is a failure. *)
Theorem C75_boot : forall min r,
  (let '(r', os) := run min r [HostReset; OutOfReset; Cs0] in
   r_state r' = RUNNING /\ on_host (concat (map fst os)) = [] /\ last os ([], Ok) = ([Irq false], Ok) /\
   r_num_wdt r' = r_num_wdt r /\ r_skip r' = r_skip r) /\
  (forall a, (min <> 0 \/ r_skip r = false \/ a_expired a = true)%Z ->
   let '(r', os) := run min r [HostReset; OutOfReset; Cs1 a] in
   r_state r' = ROLLBACK_DONE /\ exists r1 o1 o2 o3, os = [o1; o2; o3] /\ on_host (fst o1 ++ fst o2) = [] /\
     r_state r1 = EXIT_RESET /\ r_num_wdt r1 = r_num_wdt r /\ r_skip r1 = r_skip r /\
     step min r1 (Cs1 a) = (r', o3)).
Proof.
  intros min [st num skip]. split.
  - destruct st; repeat split.
  - intros a. assert (E : exists o1 o2, run min (mkRec st num skip) [HostReset; OutOfReset; Cs1 a] =
      (let '(r', o3) := step min (mkRec EXIT_RESET num skip) (Cs1 a) in (r', [o1; o2; o3])) /\
      on_host (fst o1 ++ fst o2) = []).
    { destruct st; eexists _, _; (split; [cbn [run]; cbn [step on_host_reset on_host_out_of_reset enter_in_reset r_state r_num_wdt r_skip];
        destruct (on_host_cs1 min (mkRec EXIT_RESET num skip) a) as [[? ?] ?]; reflexivity|reflexivity]). }
    destruct E as (o1 & o2 & E & O). rewrite E. destruct (step min (mkRec EXIT_RESET num skip) (Cs1 a)) as [r' o3] eqn:S.
    split.
    + cbn [step on_host_cs1 r_state r_num_wdt r_skip] in S.
      destruct (respond min (if a_expired a then 0%Z else num) (if a_expired a then false else skip) a) as [[[? ?] ?] ?].
      injection S as <- _. reflexivity.
    + exists (mkRec EXIT_RESET num skip), o1, o2, o3. repeat split; assumption.
Qed.
Print Assumptions C75_boot.

(** While the host runs nothing is done to it until it is reset, whatever
    flash it uses. *)
Theorem C75_quiet : forall min h r, r_state r = RUNNING -> ~ In HostReset h ->
  let '(r', os) := run min r h in r' = r /\ on_host (concat (map fst os)) = [].
Proof.
  intros min h. induction h as [|e h IH]; intros [st num skip] S N; [split; reflexivity|].
  cbn [r_state] in S. subst st. cbn [run].
  assert (E : fst (step min (mkRec RUNNING num skip) e) = mkRec RUNNING num skip /\
    on_host (fst (snd (step min (mkRec RUNNING num skip) e))) = []).
  { destruct e; [destruct N; left; reflexivity|split; reflexivity..]. }
  destruct (step min (mkRec RUNNING num skip) e) as [r1 o]. cbn [fst snd] in E. destruct E as (-> & E).
  specialize (IH (mkRec RUNNING num skip) eq_refl (fun x => N (or_intror x))).
  destruct (run min (mkRec RUNNING num skip) h) as [r2 os]. destruct IH as (-> & IH). split; [reflexivity|].
  cbn [map concat]. unfold on_host in *. rewrite filter_app, E, IH. reflexivity.
Qed.
Print Assumptions C75_quiet.

(** One failure is answered once: until the host has left reset, or has used
    the first flash, further resets and chip select 1 events do nothing. *)
Theorem C75_once : forall min h r, r_state r = ROLLBACK_DONE -> ~ In OutOfReset h -> ~ In Cs0 h ->
  let '(r', os) := run min r h in r' = r /\ Forall (fun o => o = ([], Ok)) os.
Proof.
  intros min h. induction h as [|e h IH]; intros [st num skip] S N M; [split; [reflexivity|constructor]|].
  cbn [r_state] in S. subst st. cbn [run].
  assert (E : step min (mkRec ROLLBACK_DONE num skip) e = (mkRec ROLLBACK_DONE num skip, ([], Ok))).
  { destruct e; [reflexivity|destruct N; left; reflexivity|destruct M; left; reflexivity|reflexivity]. }
  rewrite E. specialize (IH (mkRec ROLLBACK_DONE num skip) eq_refl (fun x => N (or_intror x)) (fun x => M (or_intror x))).
  destruct (run min (mkRec ROLLBACK_DONE num skip) h) as [r2 os]. destruct IH as (-> & IH). split; [reflexivity|].
  constructor; [reflexivity|exact IH].
Qed.
Print Assumptions C75_once.

(** A host that fails to boot five times with one plain reset configured: the
    read/write data cannot be restored, the rollback fails on a signature, and
    the image is applied with an error, then found missing. *)
Definition failing (image : code) : event := Cs1 (mkAns false NoActiveRwData BadSignature image Ok).
Example C75_demo :
  let boot e := [OutOfReset; e] in
  let h := boot (failing Ok) ++ boot (failing (Other 5)) ++ boot (failing (Other 5)) ++
    boot (failing NoRecoveryImage) in
  let os := snd (run 1 (init true) (h ++ boot (failing Ok))) in
  map fst os = [[]; [Pulse]; []; [RecoverRw; Rollback; ApplyImage; Pulse]; []; [ApplyImage; Pulse]; [];
                [ApplyImage; Pulse]; []; [Rollback; Pulse]] /\
  answered 0 (h ++ [OutOfReset]) os = 4 /\ missing false (h ++ [OutOfReset]) os = true /\
  episode [] h os = [Pulse; RecoverRw; Rollback; ApplyImage; Pulse; ApplyImage; Pulse; ApplyImage; Pulse].
Proof. vm_compute. repeat split. Qed.
