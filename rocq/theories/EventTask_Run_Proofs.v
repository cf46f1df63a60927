(** The steps of the task itself, and whole schedules. *)
From Coq Require Import List NArith ZArith Lia Bool Arith.
From Verif Require Import Base EventTask_Model EventTask_Spec EventTask_Proofs
  EventTask_Step_Proofs.
Import ListNotations.
Local Open Scope nat_scope.

Inductive wlock_move (w w' : wpc) (l l' : option owner) : Prop :=
  | wm_keep : l' = l -> wholds w' = wholds w -> wlock_move w w' l l'
  | wm_take : l = None -> l' = Some ByTask -> wholds w' = true -> wlock_move w w' l l'
  | wm_drop : l' = None -> wholds w = true -> wholds w' = false -> wlock_move w w' l l'.

Lemma worker_frame : forall c b b' s ph m s' ph' m',
  Inv c b s ph m ->
  s_clients s' = s_clients s -> s_notifying s' = s_notifying s ->
  s_action s' = s_action s -> s_len s' = s_len s -> s_buf s' = s_buf s ->
  wlock_move (s_worker s) (s_worker s') (s_lock s) (s_lock s') ->
  ph' = ph \/ (ph <> Ready /\ ph' <> Off /\ (forall r, ph = Pending r -> no_post s)) ->
  phase_ok c s' ph' ->
  s_mem s' = owner_mem s' m' ->
  (0 < b' -> b' = 1 /\ (ph' = Off \/ ph' = Down 0) /\ s_worker s' = WStart /\ s_count s' = 0) ->
  Inv c b' s' ph' m'.
Proof.
  intros c b b' s ph m s' ph' m' I Ec En Ea Ele Eb Elk Hph Hok Hm Hst.
  destruct I as [IL1 IL2 IL IN1 IN2 IP IPO IPH IM IB IS].
  constructor.
  - intros u n o pc H1 H2. rewrite Ec in H1. pose proof (IL1 _ _ _ _ H1 H2) as A.
    destruct Elk as [E1 E2|E1 E2 E3|E1 E2 E3]; [congruence|congruence|].
    pose proof (IL2 E2). congruence.
  - intros H. destruct Elk as [E1 E2|E1 E2 E3|E1 E2 E3]; [|assumption|congruence].
    rewrite E1. apply IL2. congruence.
  - destruct Elk as [E1 E2|E1 E2 E3|E1 E2 E3].
    + rewrite E1, Ec, E2. exact IL.
    + rewrite E2. exact E3.
    + rewrite E1. exact Logic.I.
  - rewrite Ec, En. exact IN1.
  - rewrite Ec, En. exact IN2.
  - intros u n o pc H1. rewrite Ec in H1. destruct (IP _ _ _ _ H1) as [A B]. split; [|exact B].
    destruct Hph as [->|(P1 & P2 & P3)].
    + eapply pc_ok_same; eauto.
    + revert A. apply pc_ok_phase; auto. intros r Hr. eapply P3; eauto.
  - rewrite Ec. exact IPO.
  - exact Hok.
  - exact Hm.
  - congruence.
  - exact Hst.
Qed.

(** A client that owns the lock excludes the task and the other way round. *)
Lemma mem_of_task : forall c b s ph m, Inv c b s ph m -> wholds (s_worker s) = true ->
  s_mem s = m.
Proof.
  intros c b s ph m I H. pose proof (i_lock_w _ _ _ _ _ I H) as L.
  rewrite (i_mem _ _ _ _ _ I). unfold owner_mem. rewrite L. reflexivity.
Qed.

Lemma owner_mem_worker : forall s s' m, s_lock s' = s_lock s -> s_clients s' = s_clients s ->
  owner_mem s' m = owner_mem s m.
Proof. intros s s' m A B. unfold owner_mem. rewrite A, B. reflexivity. Qed.

Ltac frame I := eapply (worker_frame _ _ _ _ _ _ _ _ _ I);
  [ reflexivity | reflexivity | reflexivity | reflexivity | reflexivity | | | | | ].

Lemma task_inv : forall c b s ph m mv s', Inv c b s ph m -> task_step c s mv = Some s' ->
  exists ph' m' evs, s_trace s' = s_trace s ++ evs /\
    advance (c_handlers c) (ph, m) evs (ph', m') /\ Inv c b s' ph' m'.
Proof.
  intros c b s ph m mv s' I H. unfold task_step in H.
  destruct (s_task s) eqn:Ht; [|discriminate].
  pose proof (i_phase _ _ _ _ _ I) as P.
  assert (Hoff : ph <> Off) by (apply (task_phase _ _ _ _ _ I); exact Ht).
  assert (Hst : forall A : Prop, (s_worker s <> WStart \/ 0 < s_count s) -> 0 < b -> A).
  { intros A Hw Hb. destruct (i_starts _ _ _ _ _ I Hb) as (_ & _ & B & C). destruct Hw; [congruence|lia]. }
  assert (Hmk : forall s1, s_lock s1 = s_lock s -> s_clients s1 = s_clients s -> s_mem s1 = s_mem s ->
            s_mem s1 = owner_mem s1 m).
  { intros s1 A B C. rewrite (owner_mem_worker s s1 m A B), C. apply (i_mem _ _ _ _ _ I). }
  assert (Quiet : forall s1, s_trace s1 = s_trace s -> Inv c b s1 ph m ->
    exists ph' m' evs, s_trace s1 = s_trace s ++ evs /\
      advance (c_handlers c) (ph, m) evs (ph', m') /\ Inv c b s1 ph' m').
  { intros s1 E1 E2. exists ph, m, []. rewrite app_nil_r. split; [exact E1|]. split; [|exact E2].
    left. auto. }
  assert (Loud : forall s1 e ph' m', s_trace s1 = s_trace s ++ [e] ->
    atomic (c_handlers c) (ph, m) e (ph', m') -> Inv c b s1 ph' m' ->
    exists ph' m' evs, s_trace s1 = s_trace s ++ evs /\
      advance (c_handlers c) (ph, m) evs (ph', m') /\ Inv c b s1 ph' m').
  { intros s1 e ph' m' E1 E2 E3. exists ph', m', [e]. split; [exact E1|]. split; [|exact E3].
    right. eauto. }
  destruct (s_worker s) eqn:Ew.
  - (* WStart *)
    destruct (0 <? s_count s) eqn:Ec; [|discriminate]. injection H as <-. apply Nat.ltb_lt in Ec.
    assert (exists k, ph = Down k) as [k ->].
    { destruct ph as [|k| |r|r]; cbn [phase_ok] in P; unfold waiting in P; rewrite Ew in P;
        [congruence|eauto| | |]; exfalso; intuition discriminate. }
    assert (k = 0) as ->.
    { cbn [phase_ok] in P. rewrite Ew in P. intuition congruence. }
    apply Quiet; [reflexivity|]. frame I.
    + apply wm_keep; [reflexivity|rewrite Ew; reflexivity].
    + left; reflexivity.
    + cbn [phase_ok] in *. split; [exact Ht|]. split; [tauto|]. right. left. cbn. split; [reflexivity|].
      split; [lia|reflexivity].
    + apply Hmk; reflexivity.
    + apply Hst. right. exact Ec.
  - (* WPrep *)
    assert (ph = Down i /\ i <= length (c_handlers c) /\ s_count s = 0 /\ s_running s = 0%Z)
      as (-> & Hi & Hc0 & Hr).
    { destruct ph as [|k| |r|r]; cbn [phase_ok] in P; unfold waiting in P; rewrite Ew in P;
        [congruence| | | |]; try (exfalso; intuition discriminate).
      destruct P as (_ & Hr & [(A & _)|[(A & B & C)|([A|A] & _)]]); try discriminate.
      injection A as ->. auto. }
    assert (Hne : forall A : Prop, 0 < b -> A) by (intros; eapply Hst; eauto; left; discriminate).
    destruct (nth_error (c_handlers c) i) as [h|] eqn:En; injection H as <-.
    + apply (Loud _ (Prepared h) (Down (S i)) m); [reflexivity|constructor; exact En|].
      assert (i < length (c_handlers c)) by (apply nth_error_Some; congruence).
      frame I.
      * apply wm_keep; [reflexivity|rewrite Ew; reflexivity].
      * right. repeat split; discriminate.
      * cbn [phase_ok]. split; [exact Ht|]. split; [exact Hr|]. right. left. cbn.
        split; [reflexivity|]. split; [lia|exact Hc0].
      * apply Hmk; reflexivity.
      * apply Hne.
    + apply nth_error_None in En. assert (i = length (c_handlers c)) by lia.
      apply Quiet; [reflexivity|]. frame I.
      * apply wm_keep; [reflexivity|rewrite Ew; reflexivity].
      * left; reflexivity.
      * cbn [phase_ok]. split; [exact Ht|]. split; [exact Hr|]. right. right. cbn. auto.
      * apply Hmk; reflexivity.
      * apply Hne.
  - (* WInitLock *)
    destruct (s_lock s) eqn:El; [discriminate|]. injection H as <-.
    assert (ph = Down (length (c_handlers c)) /\ s_count s = 0 /\ s_running s = 0%Z)
      as (-> & Hc0 & Hr).
    { destruct ph as [|k| |r|r]; cbn [phase_ok] in P; unfold waiting in P; rewrite Ew in P;
        [congruence| | | |]; try (exfalso; intuition discriminate).
      destruct P as (_ & Hr & [(A & _)|[(A & B & C)|(A & B & C)]]); try discriminate.
      subst k. auto. }
    apply Quiet; [reflexivity|]. frame I.
    + apply wm_take; auto.
    + left; reflexivity.
    + cbn [phase_ok]. split; [exact Ht|]. split; [exact Hr|]. right. right. cbn. auto.
    + unfold owner_mem. cbn. eapply mem_of_free; eauto.
    + apply Hst. left. discriminate.
  - (* WInitClear *)
    injection H as <-.
    assert (ph = Down (length (c_handlers c)) /\ s_count s = 0 /\ s_running s = 0%Z)
      as (-> & Hc0 & Hr).
    { destruct ph as [|k| |r|r]; cbn [phase_ok] in P; unfold waiting in P; rewrite Ew in P;
        [congruence| | | |]; try (exfalso; intuition discriminate).
      destruct P as (_ & Hr & [(A & _)|[(A & B & C)|(A & B & C)]]); try discriminate.
      subst k. auto. }
    apply (Loud _ Opened Ready m); [reflexivity|constructor|]. frame I.
    + apply wm_keep; [reflexivity|rewrite Ew; reflexivity].
    + right. repeat split; discriminate.
    + cbn [phase_ok]. split; [exact Ht|]. split; [reflexivity|]. split; [exact Hc0|]. left. reflexivity.
    + apply Hmk; reflexivity.
    + apply Hst. left. discriminate.
  - (* WInitUnlock *)
    injection H as <-. apply Quiet; [reflexivity|].
    assert (Hw : wholds (s_worker s) = true) by (rewrite Ew; reflexivity).
    pose proof (mem_of_task _ _ _ _ _ I Hw) as Hmm.
    frame I.
    + apply wm_drop; [reflexivity|exact Hw|reflexivity].
    + left; reflexivity.
    + destruct ph as [|k| |r|r]; cbn [phase_ok] in *; rewrite ?Ew in P; unfold waiting in *;
        cbn [at_worker with_lock s_task s_running s_worker s_count s_action s_len s_buf s_clients] in *.
      * congruence.
      * exfalso. intuition discriminate.
      * intuition.
      * destruct P as (A & B & C & [(D & E & F)|[(D & E & F)|(D & _)]]);
          [|  |exfalso; intuition discriminate]; split; [auto| |auto|]; (split; [auto|]);
          (split; [auto|]); [left|right; left]; auto.
      * tauto.
    + unfold owner_mem. cbn. exact Hmm.
    + apply Hst. left. discriminate.
  - (* WTake *)
    destruct (0 <? s_count s) eqn:Ec; [|discriminate]. injection H as <-. apply Nat.ltb_lt in Ec.
    assert (exists r, ph = Pending r /\ no_post s) as (r & -> & Hnp).
    { destruct ph as [|k| |r|r]; cbn [phase_ok] in P; unfold waiting in P; rewrite Ew in P;
        [congruence| | | |].
      - exfalso. intuition discriminate.
      - exfalso. destruct P as (_ & _ & P & _). lia.
      - exists r. split; [reflexivity|].
        destruct P as (_ & _ & _ & [(_ & E & _)|[(_ & _ & E)|(_ & E & _)]]); [lia|exact E|lia].
      - exfalso. tauto. }
    cbn [phase_ok] in P. destruct P as (_ & A & B & _).
    apply Quiet; [reflexivity|]. frame I.
    + apply wm_keep; [reflexivity|rewrite Ew; reflexivity].
    + left; reflexivity.
    + cbn [phase_ok]. split; [exact Ht|]. split; [exact A|]. split; [exact B|].
      right. right. cbn. auto.
    + apply Hmk; reflexivity.
    + apply Hst. left. discriminate.
  - (* WLow *)
    assert (exists r, ph = Pending r /\ no_post s /\ s_count s = 0) as (r & -> & Hnp & Hc0).
    { destruct ph as [|k| |r|r]; cbn [phase_ok] in P; unfold waiting in P; rewrite Ew in P;
        [congruence| | | |]; try (exfalso; intuition discriminate).
      exists r. split; [reflexivity|].
      destruct P as (_ & _ & _ & [(E & _)|[(E & _)|(_ & E & F)]]);
        [exfalso; intuition discriminate|exfalso; intuition discriminate|auto]. }
    cbn [phase_ok] in P. destruct P as (_ & (i & A & A') & B & _).
    rewrite A in H. replace (0 <=? Z.of_nat i)%Z with true in H by (symmetry; apply Z.leb_le; lia).
    injection H as <-. apply Quiet; [reflexivity|]. frame I.
    + apply wm_keep; [reflexivity|rewrite Ew; reflexivity].
    + left; reflexivity.
    + cbn [phase_ok]. split; [exact Ht|]. split; [exists i; auto|]. split; [exact B|].
      right. right. cbn. auto.
    + apply Hmk; reflexivity.
    + apply Hst. left. discriminate.
  - (* WHigh *)
    assert (exists r, ph = Pending r /\ no_post s /\ s_count s = 0) as (r & -> & Hnp & Hc0).
    { destruct ph as [|k| |r|r]; cbn [phase_ok] in P; unfold waiting in P; rewrite Ew in P;
        [congruence| | | |]; try (exfalso; intuition discriminate).
      exists r. split; [reflexivity|].
      destruct P as (_ & _ & _ & [(E & _)|[(E & _)|(_ & E & F)]]);
        [exfalso; intuition discriminate|exfalso; intuition discriminate|auto]. }
    cbn [phase_ok] in P. destruct P as (_ & (i & A & A') & B & _).
    assert (i < length (c_handlers c)) by (apply nth_error_Some; congruence).
    rewrite A in H.
    replace (Z.of_nat i <? Z.of_nat (length (c_handlers c)))%Z with true in H
      by (symmetry; apply Z.ltb_lt; lia).
    injection H as <-. apply Quiet; [reflexivity|]. frame I.
    + apply wm_keep; [reflexivity|rewrite Ew; reflexivity].
    + left; reflexivity.
    + cbn [phase_ok]. split; [exact Ht|]. split; [exists i; auto|]. split; [exact B|].
      right. right. cbn. auto.
    + apply Hmk; reflexivity.
    + apply Hst. left. discriminate.
  - (* WFetch *)
    assert (exists r, ph = Pending r /\ no_post s /\ s_count s = 0) as (r & -> & Hnp & Hc0).
    { destruct ph as [|k| |r|r]; cbn [phase_ok] in P; unfold waiting in P; rewrite Ew in P;
        [congruence| | | |]; try (exfalso; intuition discriminate).
      exists r. split; [reflexivity|].
      destruct P as (_ & _ & _ & [(E & _)|[(E & _)|(_ & E & F)]]);
        [exfalso; intuition discriminate|exfalso; intuition discriminate|auto]. }
    cbn [phase_ok] in P. destruct P as (_ & (i & A & A') & B & _).
    rewrite A, Nat2Z.id, A' in H.
    replace (Z.of_nat i <? 0)%Z with false in H by (symmetry; apply Z.ltb_ge; lia).
    injection H as <-.
    apply (Loud _ (Started (r_handler r)) (Running r) m); [reflexivity|constructor|]. frame I.
    + apply wm_keep; [reflexivity|rewrite Ew; reflexivity].
    + right. split; [discriminate|]. split; [discriminate|]. intros; exact Hnp.
    + cbn [phase_ok]. split; [exact Ht|]. split; [exists i; auto|]. split; [exact B|].
      split; [exact Hc0|reflexivity].
    + apply Hmk; reflexivity.
    + apply Hst. left. discriminate.
  - (* WExec *)
    assert (exists r, ph = Running r /\ h = r_handler r) as (r & -> & ->).
    { destruct ph as [|k| |r|r]; cbn [phase_ok] in P; unfold waiting in P; rewrite Ew in P;
        [congruence| | | |]; try (exfalso; intuition discriminate).
      exists r. tauto. }
    cbn [phase_ok] in P. destruct P as (_ & A & B & C & _).
    destruct mv as [|cell v|reset]; injection H as <-.
    + assert (E : Saw (r_handler r) (s_action s) (firstn (s_len s) (s_buf s)) =
                  Saw (r_handler r) (r_action r) (payload r)).
      { destruct B as [B1 B2]. rewrite B1, B2. reflexivity. }
      apply (Loud _ (Saw (r_handler r) (r_action r) (payload r)) (Running r) m);
        [cbn; rewrite E; reflexivity|constructor|]. frame I.
      * apply wm_keep; [reflexivity|rewrite Ew; reflexivity].
      * left; reflexivity.
      * cbn [phase_ok]. split; [exact Ht|]. split; [exact A|]. split; [exact B|].
        split; [exact C|reflexivity].
      * apply Hmk; reflexivity.
      * apply Hst. left. discriminate.
    + apply Quiet; [reflexivity|]. frame I.
      * apply wm_keep; [reflexivity|rewrite Ew; reflexivity].
      * left; reflexivity.
      * cbn [phase_ok]. split; [exact Ht|]. split; [exact A|]. split; [exact B|].
        split; [exact C|reflexivity].
      * apply Hmk; reflexivity.
      * apply Hst. left. discriminate.
    + apply Quiet; [reflexivity|]. frame I.
      * apply wm_keep; [reflexivity|rewrite Ew; reflexivity].
      * left; reflexivity.
      * cbn [phase_ok]. split; [exact Ht|]. split; [exact A|]. split; [exact B|].
        split; [exact C|exact Logic.I].
      * apply Hmk; reflexivity.
      * apply Hst. left. discriminate.
  - (* WSetLock *)
    destruct (s_lock s) eqn:El; [discriminate|]. injection H as <-.
    assert (exists r, ph = Running r /\ h = r_handler r) as (r & -> & ->).
    { destruct ph as [|k| |r|r]; cbn [phase_ok] in P; unfold waiting in P; rewrite Ew in P;
        [congruence| | | |]; try (exfalso; intuition discriminate).
      exists r. tauto. }
    cbn [phase_ok] in P. destruct P as (_ & A & B & C & _).
    apply Quiet; [reflexivity|]. frame I.
    + apply wm_take; auto.
    + left; reflexivity.
    + cbn [phase_ok]. split; [exact Ht|]. split; [exact A|]. split; [exact B|].
      split; [exact C|reflexivity].
    + unfold owner_mem. cbn. eapply mem_of_free; eauto.
    + apply Hst. left. discriminate.
  - (* WSetWrite *)
    injection H as <-.
    assert (Hw : wholds (s_worker s) = true) by (rewrite Ew; reflexivity).
    pose proof (mem_of_task _ _ _ _ _ I Hw) as Hmm.
    pose proof (i_lock_w _ _ _ _ _ I Hw) as Hl.
    assert (exists r, ph = Running r /\ h = r_handler r) as (r & -> & ->).
    { destruct ph as [|k| |r|r]; cbn [phase_ok] in P; unfold waiting in P; rewrite Ew in P;
        [congruence| | | |]; try (exfalso; intuition discriminate).
      exists r. tauto. }
    cbn [phase_ok] in P. destruct P as (_ & A & B & C & _).
    apply (Loud _ (Wrote c0 v) (Running r) (put m c0 v)); [reflexivity|constructor|]. frame I.
    + apply wm_keep; [reflexivity|rewrite Ew; reflexivity].
    + left; reflexivity.
    + cbn [phase_ok]. split; [exact Ht|]. split; [exact A|]. split; [exact B|].
      split; [exact C|reflexivity].
    + unfold owner_mem. cbn. rewrite Hl, Hmm. reflexivity.
    + apply Hst. left. discriminate.
  - (* WSetUnlock *)
    injection H as <-.
    assert (Hw : wholds (s_worker s) = true) by (rewrite Ew; reflexivity).
    pose proof (mem_of_task _ _ _ _ _ I Hw) as Hmm.
    assert (exists r, ph = Running r /\ h = r_handler r) as (r & -> & ->).
    { destruct ph as [|k| |r|r]; cbn [phase_ok] in P; unfold waiting in P; rewrite Ew in P;
        [congruence| | | |]; try (exfalso; intuition discriminate).
      exists r. tauto. }
    cbn [phase_ok] in P. destruct P as (_ & A & B & C & _).
    apply Quiet; [reflexivity|]. frame I.
    + apply wm_drop; [reflexivity|exact Hw|reflexivity].
    + left; reflexivity.
    + cbn [phase_ok]. split; [exact Ht|]. split; [exact A|]. split; [exact B|].
      split; [exact C|reflexivity].
    + unfold owner_mem. cbn. exact Hmm.
    + apply Hst. left. discriminate.
  - (* WReset *)
    assert (exists r, ph = Running r) as (r & ->).
    { destruct ph as [|k| |r|r]; cbn [phase_ok] in P; unfold waiting in P; rewrite Ew in P;
        [congruence| | | |]; try (exfalso; intuition discriminate). eauto. }
    cbn [phase_ok] in P. destruct P as (_ & A & B & C & _).
    destruct reset; injection H as <-.
    + apply (Loud _ SystemReset (Running r) m); [reflexivity|constructor|]. frame I.
      * apply wm_keep; [reflexivity|rewrite Ew; reflexivity].
      * left; reflexivity.
      * cbn [phase_ok]. split; [exact Ht|]. split; [exact A|]. split; [exact B|].
        split; [exact C|exact Logic.I].
      * apply Hmk; reflexivity.
      * apply Hst. left. discriminate.
    + apply Quiet; [reflexivity|]. frame I.
      * apply wm_keep; [reflexivity|rewrite Ew; reflexivity].
      * left; reflexivity.
      * cbn [phase_ok]. split; [exact Ht|]. split; [exact A|]. split; [exact B|].
        split; [exact C|exact Logic.I].
      * apply Hmk; reflexivity.
      * apply Hst. left. discriminate.
  - (* WLock *)
    destruct (s_lock s) eqn:El; [discriminate|]. injection H as <-.
    assert (exists r, ph = Running r) as (r & ->).
    { destruct ph as [|k| |r|r]; cbn [phase_ok] in P; unfold waiting in P; rewrite Ew in P;
        [congruence| | | |]; try (exfalso; intuition discriminate). eauto. }
    cbn [phase_ok] in P. destruct P as (_ & A & B & C & _).
    apply Quiet; [reflexivity|]. frame I.
    + apply wm_take; auto.
    + left; reflexivity.
    + cbn [phase_ok]. split; [exact Ht|]. split; [exact A|]. split; [exact B|].
      split; [exact C|exact Logic.I].
    + unfold owner_mem. cbn. eapply mem_of_free; eauto.
    + apply Hst. left. discriminate.
  - (* WClear *)
    injection H as <-.
    assert (exists r, ph = Running r) as (r & ->).
    { destruct ph as [|k| |r|r]; cbn [phase_ok] in P; unfold waiting in P; rewrite Ew in P;
        [congruence| | | |]; try (exfalso; intuition discriminate). eauto. }
    cbn [phase_ok] in P. destruct P as (_ & A & B & C & _).
    apply (Loud _ Finished Ready m); [reflexivity|apply a_finished|]. frame I.
    + apply wm_keep; [reflexivity|rewrite Ew; reflexivity].
    + right. repeat split; discriminate.
    + cbn [phase_ok]. split; [exact Ht|]. split; [reflexivity|]. split; [exact C|].
      right. right. reflexivity.
    + apply Hmk; reflexivity.
    + apply Hst. left. discriminate.
  - (* WUnlock *)
    injection H as <-. apply Quiet; [reflexivity|].
    assert (Hw : wholds (s_worker s) = true) by (rewrite Ew; reflexivity).
    pose proof (mem_of_task _ _ _ _ _ I Hw) as Hmm.
    frame I.
    + apply wm_drop; [reflexivity|exact Hw|reflexivity].
    + left; reflexivity.
    + destruct ph as [|k| |r|r]; cbn [phase_ok] in *; rewrite ?Ew in P; unfold waiting in *;
        cbn [at_worker with_lock s_task s_running s_worker s_count s_action s_len s_buf s_clients] in *.
      * congruence.
      * exfalso. intuition discriminate.
      * intuition.
      * destruct P as (A & B & C & [(D & E & F)|[(D & E & F)|(D & _)]]);
          [|  |exfalso; intuition discriminate]; split; [auto| |auto|]; (split; [auto|]);
          (split; [auto|]); [left|right; left]; auto.
      * tauto.
    + unfold owner_mem. cbn. exact Hmm.
    + apply Hst. left. discriminate.
  - discriminate.
Qed.

Lemma init_inv : forall c m, Inv c 1 (init c m) Off m.
Proof.
  intros c m. constructor; cbn [init s_clients s_lock s_worker s_notifying s_running s_count s_mem
    s_buf s_task]; try (intros; discriminate).
  - exact Logic.I.
  - cbn [phase_ok init s_task s_worker s_count s_running]. auto.
  - reflexivity.
  - apply repeat_length.
  - auto.
Qed.

Lemma step_inv : forall c b s ph m ch s', Inv c b s ph m ->
  proper_choice (c_handlers c) ch -> (ch = Start -> 0 < b) -> step c s ch = Some s' ->
  exists ph' m' evs, s_trace s' = s_trace s ++ evs /\
    advance (c_handlers c) (ph, m) evs (ph', m') /\
    Inv c (match ch with Start => 0 | _ => b end) s' ph' m'.
Proof.
  intros c b s ph m ch s' I Hp Hb H. destruct ch as [| |t o|t|mv]; cbn [step] in H.
  - destruct (s_task s) eqn:Ht; [discriminate|]. injection H as <-.
    assert (ph = Off) as ->.
    { destruct ph; try reflexivity; exfalso;
        (assert (s_task s = true) by (apply (task_phase _ _ _ _ _ I); discriminate); congruence). }
    pose proof (i_phase _ _ _ _ _ I) as P. cbn [phase_ok] in P. destruct P as (_ & A & B & C).
    exists (Down 0), m, [Created]. split; [reflexivity|]. split.
    + right. exists Created. split; [reflexivity|constructor].
    + eapply (worker_frame _ _ _ _ _ _ _ _ _ I); try reflexivity.
      * apply wm_keep; reflexivity.
      * right. split; [discriminate|]. split; [discriminate|]. intros; discriminate.
      * cbn [phase_ok]. cbn. split; [reflexivity|]. split; [exact C|]. left.
        split; [exact A|]. split; [reflexivity|lia].
      * rewrite (owner_mem_worker s) by reflexivity. apply (i_mem _ _ _ _ _ I).
      * intros Hb'. destruct (i_starts _ _ _ _ _ I Hb') as (D & _ & E & F). auto.
  - destruct (s_task s) eqn:Ht; [|discriminate]. injection H as <-.
    destruct (i_starts _ _ _ _ _ I (Hb eq_refl)) as (D & Hph & E & F).
    destruct Hph as [->| ->].
    { assert (Off <> Off) by (apply (task_phase _ _ _ _ _ I); exact Ht). contradiction. }
    pose proof (i_phase _ _ _ _ _ I) as P. cbn [phase_ok] in P. destruct P as (_ & A & _).
    exists (Down 0), m, []. split; [cbn; rewrite app_nil_r; reflexivity|]. split; [left; auto|].
    eapply (worker_frame _ _ _ _ _ _ _ _ _ I); try reflexivity.
    + apply wm_keep; reflexivity.
    + left; reflexivity.
    + cbn [phase_ok]. cbn. split; [exact Ht|]. split; [exact A|]. left.
      split; [exact E|]. split; [reflexivity|]. rewrite F. lia.
    + rewrite (owner_mem_worker s) by reflexivity. apply (i_mem _ _ _ _ _ I).
    + intros Hz. lia.
  - destruct (call_inv _ _ _ _ _ _ _ _ I Hp H) as (e & A & B & C).
    exists ph, m, [e]. split; [exact A|]. split; [right; eauto|exact C].
  - eapply client_inv; eauto.
  - eapply task_inv; eauto.
Qed.

Lemma behaves_step : forall hs x tr y evs z,
  behaves hs x tr y -> advance hs y evs z -> behaves hs x (tr ++ evs) z.
Proof.
  intros hs x tr y evs z H [[-> ->]|(e & -> & Ha)]; [rewrite app_nil_r; exact H|].
  eapply b_snoc; eauto.
Qed.

Lemma run_inv : forall c x0 sch b s ph m s', Inv c b s ph m ->
  behaves (c_handlers c) x0 (s_trace s) (ph, m) ->
  Forall (proper_choice (c_handlers c)) sch -> starts sch <= b ->
  run c s sch = Some s' ->
  exists b' ph' m', behaves (c_handlers c) x0 (s_trace s') (ph', m') /\ Inv c b' s' ph' m'.
Proof.
  intros c x0 sch. induction sch as [|ch sch IH]; cbn [run]; intros b s ph m s' I Hb Hf Hs H.
  - injection H as <-. eauto.
  - destruct (step c s ch) as [s1|] eqn:E; [|discriminate].
    inversion Hf as [|? ? Hp Hf']; subst.
    assert (Hs1 : (ch = Start -> 0 < b) /\ starts sch <= match ch with Start => 0 | _ => b end).
    { unfold starts in *. destruct ch; cbn [filter length] in Hs |- *;
        (split; [intros A; try discriminate; lia|]); try lia.
      assert (b = 1 \/ b = 0 \/ 1 < b) as [Hb1|[Hb1|Hb1]] by lia; [lia|lia|].
      destruct (i_starts _ _ _ _ _ I ltac:(lia)) as (D & _). lia. }
    destruct Hs1 as [Hs1 Hs2].
    destruct (step_inv _ _ _ _ _ _ _ I Hp Hs1 E) as (ph' & m' & evs & A & B & C).
    eapply IH; [exact C| |exact Hf'|exact Hs2|exact H].
    rewrite A. eapply behaves_step; eauto.
Qed.

Lemma reach_inv : forall c m sch s, proper (c_handlers c) sch -> run c (init c m) sch = Some s ->
  exists b ph m', behaves (c_handlers c) (Off, m) (s_trace s) (ph, m') /\ Inv c b s ph m'.
Proof.
  intros c m sch s [Hf Hs] H. eapply run_inv; eauto.
  - apply init_inv.
  - apply b_nil.
Qed.
