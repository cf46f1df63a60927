(** * C81: updates that affect the host need an authorization that is still valid. *)
From Coq Require Import List NArith Lia Bool Arith ZifyBool ZifyNat ZifyN.
From Verif Require Import Base Impactful_Model Impactful_Spec.
Import ListNotations.
Local Open Scope N_scope.

Lemma run_app : forall a b s, run s (a ++ b) = match run s a with Some s => run s b | None => None end.
Proof. induction a as [|e a IH]; intros b s; auto. cbn [app run]. destruct (step s e); auto. Qed.

Lemma run_snoc : forall l e s s2, run s (l ++ [e]) = Some s2 -> exists s1, run s l = Some s1 /\ step s1 e = Some s2.
Proof. intros l e s s2 R. rewrite run_app in R. destruct (run s l) as [s1|]; [|discriminate]. cbn [run] in R. exists s1. destruct (step s1 e); [auto|discriminate]. Qed.

Lemma elapsed_app : forall a b, elapsed (a ++ b) = elapsed a + elapsed b.
Proof. induction a as [|e a IH]; intros b; auto. destruct e; cbn [app elapsed]; rewrite IH; lia. Qed.

Ltac one_step H := cbn [step] in H;
  repeat match type of H with
  | match ?x with _ => _ end = Some _ => destruct x eqn:?; try discriminate H
  | (if ?x then _ else _) = Some _ => destruct x eqn:?; try discriminate H
  end.

Lemma now_elapsed : forall l s, run init l = Some s -> now s = elapsed l.
Proof.
  intros l. induction l as [|e l IH] using rev_ind; intros s R; [now assert (s = init) as -> by (cbn in R; congruence)|].
  apply run_snoc in R. destruct R as (s1 & R & E). rewrite elapsed_app, <- (IH _ R).
  destruct e; one_step E; try destruct ok; match type of E with Some ?x = Some _ => assert (s = x) as -> by congruence end; cbn [now elapsed]; lia.
Qed.

Definition idle_or (s : state) (P : Prop) : Prop := P \/ exists i, task s i <> Idle.

(** The authorization is there only because of an authorization; it has a
    timer, or is about to be cleared. *)
Lemma authorized_inv : forall l s, run init l = Some s -> authorized s = true ->
  exists before d after, last_authorization l before d after /\
    idle_or s (d = 0 \/ timer s = Some (elapsed before + d)).
Proof.
  intros l. induction l as [|e l IH] using rev_ind; intros s R A; [cbn in R; assert (s = init) as -> by congruence; discriminate|].
  pose proof (now_elapsed _ _ R) as NOW. apply run_snoc in R. destruct R as (s1 & R & E).
  assert (KEEP : ~ authorizes e -> authorized s1 = true -> forall Q,
    (forall d t, (d = 0 \/ timer s1 = Some t) -> Q d t) -> True) by auto. clear KEEP.
  assert (SNOC : forall before d after, ~ authorizes e -> last_authorization l before d after -> last_authorization (l ++ [e]) before d (after ++ [e])).
  { intros before d after NE (-> & NA). split; [now rewrite <- app_assoc|]. intros X. apply Exists_app in X. destruct X as [X|X]; [auto|]. inversion X; subst; auto. inversion H0. }
  destruct e as [d [|]|i|i ok|i|i|]; one_step E.
  - assert (s = State (now s1) true (if negb (d =? 0) then Some (now s1 + d) else None) (task s1)) as -> by congruence.
    exists l, d, []. split; [split; [reflexivity|intros X; inversion X]|]. left. cbn [timer now] in *. rewrite elapsed_app in NOW. cbn [elapsed] in NOW.
    destruct (d =? 0) eqn:D; cbn [negb]; [left; lia|right; f_equal; lia].
  - assert (s = s1) as -> by congruence. destruct (IH _ R A) as (b & d' & a & L & I). exists b, d', (a ++ [Authorize d false]).
    split; [apply SNOC; auto; intros (? & ?); discriminate|exact I].
  - match type of E with Some ?x = Some _ => assert (s = x) as -> by congruence end. cbn [authorized] in A.
    destruct (IH _ R A) as (b & d' & a & L & I). exists b, d', (a ++ [ResetCalled i]). split; [apply SNOC; auto; intros (? & ?); discriminate|].
    right. exists i. cbn [task]. unfold set_task. rewrite Nat.eqb_refl. discriminate.
  - match type of E with Some ?x = Some _ => assert (s = x) as -> by congruence end. cbn [authorized] in A.
    destruct (IH _ R A) as (b & d' & a & L & I). exists b, d', (a ++ [Disarmed i ok]). split; [apply SNOC; auto; intros (? & ?); discriminate|].
    right. exists i. cbn [task]. unfold set_task. rewrite Nat.eqb_refl. discriminate.
  - match type of E with Some ?x = Some _ => assert (s = x) as -> by congruence end. discriminate A.
  - match type of E with Some ?x = Some _ => assert (s = x) as -> by congruence end. cbn [authorized] in A.
    destruct (IH _ R A) as (b & d' & a & L & I). exists b, d', (a ++ [Fired i]). split; [apply SNOC; auto; intros (? & ?); discriminate|].
    right. exists i. cbn [task]. unfold set_task. rewrite Nat.eqb_refl. discriminate.
  - match type of E with Some ?x = Some _ => assert (s = x) as -> by congruence end. cbn [authorized] in A.
    destruct (IH _ R A) as (b & d' & a & L & I). exists b, d', (a ++ [Tick]). split; [apply SNOC; auto; intros (? & ?); discriminate|exact I].
Qed.

(** Whatever calls are made at the same time: when the manager is quiet, an
    update is authorized only by an authorization that has not expired. *)
Theorem C81_expires : forall l s, run init l = Some s -> quiet s -> authorized s = true ->
  exists before d after, last_authorization l before d after /\ (d = 0 \/ elapsed l < elapsed before + d).
Proof.
  intros l s R (QT & QD) A. destruct (authorized_inv l s R A) as (b & d & a & L & [I|(i & X)]); [|now elim X].
  exists b, d, a. split; auto. destruct I as [I|I]; auto. right. apply QD in I. now rewrite (now_elapsed _ _ R) in I.
Qed.
Print Assumptions C81_expires.

(** Once a call of reset_authorization or the callback of the timer is done,
    nothing is authorized until an authorization works again. *)
Theorem C81_reset : forall before i after s, run init (before ++ ResetDone i :: after) = Some s -> ~ Exists authorizes after -> authorized s = false.
Proof.
  intros before i after s R NA. destruct (authorized s) eqn:A; auto. exfalso. revert s R NA A.
  induction after as [|e after IH] using rev_ind; intros s R NA A.
  - apply run_snoc in R. destruct R as (s1 & R & E). one_step E. assert (s = State (now s1) false (timer s1) (set_task (task s1) i Idle)) as -> by congruence. discriminate.
  - change (ResetDone i :: after ++ [e]) with ((ResetDone i :: after) ++ [e]) in R. rewrite app_assoc in R. apply run_snoc in R. destruct R as (s1 & R & E).
    assert (NA1 : ~ Exists authorizes after) by (intros X; apply NA, Exists_app; auto).
    assert (NE : ~ authorizes e) by (intros X; apply NA, Exists_app; right; now constructor).
    apply (IH s1 R NA1). destruct e as [d [|]|j|j ok|j|j|]; one_step E;
      try (match type of E with Some ?x = Some _ => assert (s = x) as -> by congruence end; (exact A || discriminate A)).
    elim NE. now exists d.
Qed.
Print Assumptions C81_reset.

(** An authorization is not lost: it lasts for its time if nothing was running
    when it was given and reset_authorization was not called since. *)
Theorem C81_kept : forall before d after s1 s, run init before = Some s1 -> (forall i, task s1 i = Idle) ->
  run init (before ++ Authorize d true :: after) = Some s -> ~ Exists authorizes after ->
  Forall (fun e => forall i, e <> ResetCalled i) after ->
  d = 0 \/ elapsed after < d ->
  authorized s = true.
Proof.
  intros before d after s1 s R1 QT R NA NR D.
  enough (K : authorized s = true /\ (forall i, task s i = Idle) /\ now s = now s1 + elapsed after /\
              timer s = if negb (d =? 0) then Some (now s1 + d) else None) by tauto.
  rewrite run_app, R1 in R. cbn [run step] in R. revert s R NA NR D.
  induction after as [|e after IH] using rev_ind; intros s R NA NR D.
  - cbn [run] in R. match type of R with Some ?x = Some _ => assert (s = x) as -> by congruence end. cbn. repeat split; auto. lia.
  - apply run_snoc in R. destruct R as (s2 & R & E).
    assert (NA1 : ~ Exists authorizes after) by (intros X; apply NA, Exists_app; auto).
    assert (NE : ~ authorizes e) by (intros X; apply NA, Exists_app; right; now constructor).
    apply Forall_app in NR. destruct NR as (NR & NR1). inversion NR1 as [|? ? NR2 _]; subst.
    rewrite elapsed_app in D |- *. destruct (IH s2 R NA1 NR ltac:(lia)) as (K1 & K2 & K3 & K4).
    destruct e as [d' [|]|j|j ok|j|j|]; cbn [step] in E.
    + elim NE. now exists d'.
    + assert (s = s2) as -> by congruence. cbn [elapsed]. repeat split; auto. lia.
    + now elim (NR2 j).
    + rewrite K2 in E. discriminate.
    + rewrite K2 in E. discriminate.
    + rewrite K2, K4 in E. destruct (negb (d =? 0)) eqn:Z; [|discriminate]. destruct (_ <=? _) eqn:LE; [|discriminate]. lia.
    + match type of E with Some ?x = Some _ => assert (s = x) as -> by congruence end. cbn. repeat split; auto. lia.
Qed.
Print Assumptions C81_kept.

(** The states in which the checks are made. *)
Fixpoint checked_in (s : state) (l : list (list event * check)) : list (state * check) :=
  match l with
  | [] => []
  | (es, c) :: l => match run s es with Some s => (s, c) :: checked_in s l | None => [] end
  end.

(** An update is allowed exactly if every check finds that it does not affect
    the host, or that this can be authorized and is authorized at that time;
    other observers can only forbid it. *)
Theorem C81_allowed : forall l s others r, on_update_start s others l = Some r ->
  r = 0 <->
  others = 0 /\ Forall (fun x => c_not_impactful (snd x) = 0 \/ c_authorization (snd x) = 0 /\ authorized (fst x) = true) (checked_in s l).
Proof.
  assert (ALL : forall l s a r, is_allowed s a l = Some r ->
    r = 0 <-> a = 0 /\ Forall (fun x => c_not_impactful (snd x) = 0 \/ c_authorization (snd x) = 0 /\ authorized (fst x) = true) (checked_in s l)).
  { induction l as [|[es c] l IH]; intros s a r R; cbn [is_allowed checked_in] in *.
    - assert (r = a) as -> by congruence. intuition.
    - destruct (run s es) as [s1|]; [|discriminate]. destruct (c_not_impactful c =? 0) eqn:N1; cbn [negb] in R.
      + rewrite (IH _ _ _ R). split; intros (H1 & H2); (split; [exact H1|]); [constructor; [left; cbn; lia|exact H2]|now inversion H2].
      + destruct (c_authorization c =? 0) eqn:N2; cbn [negb] in R.
        * rewrite (IH _ _ _ R). destruct (authorized s1) eqn:A; cbn [negb].
          -- split; intros (H1 & H2); (split; [exact H1|]); [constructor; [right; cbn; split; [lia|auto]|exact H2]|now inversion H2].
          -- split; [intros (H1 & _); lia|]. intros (_ & H2). inversion H2 as [|? ? [X|(_ & X)] _]; subst; cbn in X; [lia|congruence].
        * assert (r = c_authorization c) as -> by congruence. split; [lia|]. intros (_ & H2). inversion H2 as [|? ? [X|(X & _)] _]; subst; cbn in X; lia. }
  intros l s others r R. unfold on_update_start in R. destruct (others =? 0) eqn:O.
  - rewrite (ALL _ _ _ _ R). split; intros (H1 & H2); (split; [lia|exact H2]).
  - assert (r = others) as -> by congruence. split; [lia|intros (H & _); lia].
Qed.
Print Assumptions C81_allowed.

(** After a successful update the authorization is used up, and the device
    resets itself only if the update does not affect the host. *)
Theorem C81_after : forall run_update status reset checks,
  let '(used, status', reset') := handler_execute run_update status reset checks in
  (used = true <-> run_update = true /\ (status = 0 \/ status = 34)) /\
  (reset' = true <-> reset = true /\ ~ (run_update = true /\ status = 0 /\ Exists (fun c => c_not_impactful c <> 0) checks)) /\
  (status' = status \/ status = 0 /\ status' = 34 /\ reset' = false).
Proof.
  intros run_update status reset checks. unfold handler_execute, UPDATE_SUCCESS, UPDATE_SUCCESS_NO_RESET.
  assert (NI : not_impactful checks = 0 <-> ~ Exists (fun c => c_not_impactful c <> 0) checks).
  { induction checks as [|c l IH]; cbn [not_impactful]; [split; auto; intros _ X; inversion X|].
    destruct (c_not_impactful c =? 0) eqn:Z; cbn [negb].
    - rewrite IH. split; intros X; [intros Y; inversion Y; subst; [lia|auto]|intros Y; apply X; now right].
    - split; [lia|]. intros X. elim X. left. lia. }
  destruct run_update; cbn [andb]; [|split; [split; [discriminate|intros (X & _); discriminate]|split; [|auto]; split; [intros ->; split; [auto|intros (X & _); discriminate]|tauto]]].
  destruct (status =? 0) eqn:S0; cbn [orb andb].
  - destruct (not_impactful checks =? 0) eqn:Z; cbn [negb].
    + split; [split; intros; [split; [auto|left; lia]|auto]|]. split; [|auto]. split; [intros ->|tauto]. split; auto. intros (_ & _ & X). apply NI in X; [auto|lia].
    + split; [split; intros; [split; [auto|left; lia]|auto]|]. split; [|right; repeat split; lia]. split; [discriminate|]. intros (_ & X). elim X. split; auto. split; [lia|].
      destruct (Exists_dec (fun c => c_not_impactful c <> 0) checks) as [Y|Y]; auto; [intros c; destruct (N.eq_dec (c_not_impactful c) 0); [right; lia|now left]|].
      apply NI in Y. lia.
  - destruct (status =? 34) eqn:S1.
    + split; [split; intros; [split; [auto|right; lia]|auto]|]. split; [|auto]. split; [intros ->; split; [auto|lia]|tauto].
    + split; [split; [discriminate|lia]|]. split; [|auto]. split; [intros ->; split; [auto|lia]|tauto].
Qed.
Print Assumptions C81_after.

(** ** Locks *)
Fixpoint has_manager (l : list instr) : bool :=
  match l with [] => false | GiveManager :: _ => true | TakeManager :: _ => false | _ :: l => has_manager l end.
Fixpoint has_timer (l : list instr) : bool :=
  match l with [] => false | GiveTimer :: _ => true | TakeTimer :: _ => false | _ :: l => has_timer l end.

Fixpoint suffixes (l : list instr) : list (list instr) := l :: match l with [] => [] | _ :: l => suffixes l end.
Definition rests : list (list instr) := suffixes (code AuthorizeCall) ++ suffixes (code ResetCall) ++ suffixes (code CheckCall).

Definition consistent (s : locks) : Prop :=
  (forall i, In (left_to_do s i) rests) /\
  (forall i, has_manager (left_to_do s i) = match manager s with Some j => (j =? i)%nat | None => false end) /\
  (forall i, has_timer (left_to_do s i) = match timer_lock s with Some (j, _) => (j =? i)%nat | None => false end) /\
  (forall j n, timer_lock s = Some (j, n) -> n = 1%nat).

Lemma rest_next : forall c l, In (c :: l) rests ->
  In l rests /\ c <> IfArmed /\
  (has_timer (c :: l) = true -> c <> TakeManager /\ c <> TakeTimer) /\ (has_manager (c :: l) = true -> c <> TakeManager) /\
  (c = TakeManager -> has_manager l = true /\ has_timer l = false) /\ (c = GiveManager -> has_manager l = false /\ has_timer l = false) /\
  (c = TakeTimer -> has_timer l = true) /\ (c = GiveTimer -> has_timer l = false) /\
  (c <> TakeManager -> c <> GiveManager -> has_manager l = has_manager (c :: l)) /\
  (c <> TakeTimer -> c <> GiveTimer -> has_timer l = has_timer (c :: l)).
Proof.
  intros c l H. unfold rests in H. cbn [suffixes code reset_code app In] in H.
  repeat (destruct H as [H|H]; [first [discriminate H|
    (assert (c = hd Read (c :: l)) as Hc by reflexivity; assert (l = tl (c :: l)) as Hl by reflexivity; rewrite <- H in Hc, Hl; cbn [hd tl] in Hc, Hl; clear H; subst c l;
     split; [unfold rests; cbn [suffixes code reset_code app In]; repeat (first [left; reflexivity|right])|
      split; [discriminate|repeat split; intros;
        first [reflexivity|discriminate|match goal with X : ?a <> ?a |- _ => elim X; reflexivity | X : _ = _ |- _ => discriminate X end]]])]|]).
  destruct H.
Qed.

Lemma consistent_advance : forall s i s', consistent s -> advance s i = Some s' -> consistent s'.
Proof.
  intros s i s' (C1 & C2 & C3 & C4) A. unfold advance in A. destruct (left_to_do s i) as [|c l] eqn:L; [discriminate|].
  pose proof (C1 i) as IN. rewrite L in IN. destruct (rest_next c l IN) as (R0 & R1 & R2 & R2' & R3 & R4 & R5 & R6 & R7 & R8).
  pose proof (C2 i) as Mi. pose proof (C3 i) as Ti. rewrite L in Mi, Ti.
  assert (OTHER : forall (P : list instr -> nat -> Prop), P l i -> (forall j, j <> i -> P (left_to_do s j) j) -> forall j, P (set_todo (left_to_do s) i l j) j).
  { intros P X Y j. unfold set_todo. destruct (j =? i)%nat eqn:E; [apply Nat.eqb_eq in E; subst; auto|apply Y; now apply Nat.eqb_neq]. }
  destruct c; try congruence.
  - destruct (manager s) as [j|] eqn:M; [discriminate|]. match type of A with Some ?x = _ => assert (s' = x) as -> by congruence end. destruct (R3 eq_refl) as (H1 & H2).
    split; [|split; [|split]]; cbn [left_to_do manager timer_lock]; [apply (OTHER (fun t _ => In t rests)); auto|..|exact C4].
    + apply (OTHER (fun t j => has_manager t = (i =? j)%nat)); [now rewrite Nat.eqb_refl|]. intros j J. rewrite C2. symmetry. apply Nat.eqb_neq. auto.
    + apply (OTHER (fun t j => has_timer t = match timer_lock s with Some (k, _) => (k =? j)%nat | None => false end)); [|intros; apply C3].
      rewrite (R8 ltac:(discriminate) ltac:(discriminate)). exact Ti.
  - match type of A with Some ?x = _ => assert (s' = x) as -> by congruence end. destruct (R4 eq_refl) as (H1 & H2).
    split; [|split; [|split]]; cbn [left_to_do manager timer_lock]; [apply (OTHER (fun t _ => In t rests)); auto|..|exact C4].
    + apply (OTHER (fun t j => has_manager t = false)); [auto|]. intros j J. rewrite C2. cbn [has_manager] in Mi. destruct (manager s) as [k|]; auto.
      apply Nat.eqb_neq. intros ->. symmetry in Mi. apply Nat.eqb_eq in Mi. congruence.
    + apply (OTHER (fun t j => has_timer t = match timer_lock s with Some (k, _) => (k =? j)%nat | None => false end)); [|intros; apply C3].
      rewrite (R8 ltac:(discriminate) ltac:(discriminate)). exact Ti.
  - destruct (timer_lock s) as [[j n]|] eqn:T.
    + destruct (j =? i)%nat eqn:J; [|discriminate]. cbn [has_timer] in Ti. congruence.
    + match type of A with Some ?x = _ => assert (s' = x) as -> by congruence end.
      split; [|split; [|split]]; cbn [left_to_do manager timer_lock]; [apply (OTHER (fun t _ => In t rests)); auto|..|intros; congruence].
      * apply (OTHER (fun t j => has_manager t = match manager s with Some k => (k =? j)%nat | None => false end)); [|intros; apply C2].
        rewrite (R7 ltac:(discriminate) ltac:(discriminate)). exact Mi.
      * apply (OTHER (fun t j => has_timer t = (i =? j)%nat)); [rewrite Nat.eqb_refl; auto|]. intros j J. rewrite C3. symmetry. apply Nat.eqb_neq. auto.
  - match type of A with Some ?x = _ => assert (s' = x) as -> by congruence end. cbn [has_timer] in Ti. destruct (timer_lock s) as [[j n]|] eqn:T; [|discriminate].
    rewrite (C4 j n eq_refl).
    split; [|split; [|split]]; cbn [left_to_do manager timer_lock]; [apply (OTHER (fun t _ => In t rests)); auto|..|intros; congruence].
    + apply (OTHER (fun t j => has_manager t = match manager s with Some k => (k =? j)%nat | None => false end)); [|intros; apply C2].
      rewrite (R7 ltac:(discriminate) ltac:(discriminate)). exact Mi.
    + apply (OTHER (fun t j => has_timer t = false)); [auto|]. intros k K. rewrite C3. apply Nat.eqb_neq. intros ->. symmetry in Ti. apply Nat.eqb_eq in Ti. congruence.
  - match type of A with Some ?x = _ => assert (s' = x) as -> by congruence end.
    split; [|split; [|split]]; cbn [left_to_do manager timer_lock]; [apply (OTHER (fun t _ => In t rests)); auto|..|exact C4].
    + apply (OTHER (fun t j => has_manager t = match manager s with Some k => (k =? j)%nat | None => false end)); [|intros; apply C2]. rewrite (R7 ltac:(discriminate) ltac:(discriminate)). exact Mi.
    + apply (OTHER (fun t j => has_timer t = match timer_lock s with Some (k, _) => (k =? j)%nat | None => false end)); [|intros; apply C3]. rewrite (R8 ltac:(discriminate) ltac:(discriminate)). exact Ti.
  - match type of A with Some ?x = _ => assert (s' = x) as -> by congruence end.
    split; [|split; [|split]]; cbn [left_to_do manager timer_lock]; [apply (OTHER (fun t _ => In t rests)); auto|..|exact C4].
    + apply (OTHER (fun t j => has_manager t = match manager s with Some k => (k =? j)%nat | None => false end)); [|intros; apply C2]. rewrite (R7 ltac:(discriminate) ltac:(discriminate)). exact Mi.
    + apply (OTHER (fun t j => has_timer t = match timer_lock s with Some (k, _) => (k =? j)%nat | None => false end)); [|intros; apply C3]. rewrite (R8 ltac:(discriminate) ltac:(discriminate)). exact Ti.
  - match type of A with Some ?x = _ => assert (s' = x) as -> by congruence end.
    split; [|split; [|split]]; cbn [left_to_do manager timer_lock]; [apply (OTHER (fun t _ => In t rests)); auto|..|exact C4].
    + apply (OTHER (fun t j => has_manager t = match manager s with Some k => (k =? j)%nat | None => false end)); [|intros; apply C2]. rewrite (R7 ltac:(discriminate) ltac:(discriminate)). exact Mi.
    + apply (OTHER (fun t j => has_timer t = match timer_lock s with Some (k, _) => (k =? j)%nat | None => false end)); [|intros; apply C3]. rewrite (R8 ltac:(discriminate) ltac:(discriminate)). exact Ti.
  - match type of A with Some ?x = _ => assert (s' = x) as -> by congruence end.
    split; [|split; [|split]]; cbn [left_to_do manager timer_lock]; [apply (OTHER (fun t _ => In t rests)); auto|..|exact C4].
    + apply (OTHER (fun t j => has_manager t = match manager s with Some k => (k =? j)%nat | None => false end)); [|intros; apply C2]. rewrite (R7 ltac:(discriminate) ltac:(discriminate)). exact Mi.
    + apply (OTHER (fun t j => has_timer t = match timer_lock s with Some (k, _) => (k =? j)%nat | None => false end)); [|intros; apply C3]. rewrite (R8 ltac:(discriminate) ltac:(discriminate)). exact Ti.
  - match type of A with Some ?x = _ => assert (s' = x) as -> by congruence end.
    split; [|split; [|split]]; cbn [left_to_do manager timer_lock]; [apply (OTHER (fun t _ => In t rests)); auto|..|exact C4].
    + apply (OTHER (fun t j => has_manager t = match manager s with Some k => (k =? j)%nat | None => false end)); [|intros; apply C2]. rewrite (R7 ltac:(discriminate) ltac:(discriminate)). exact Mi.
    + apply (OTHER (fun t j => has_timer t = match timer_lock s with Some (k, _) => (k =? j)%nat | None => false end)); [|intros; apply C3]. rewrite (R8 ltac:(discriminate) ltac:(discriminate)). exact Ti.
Qed.

Lemma consistent_begin : forall s i c s', c <> Expired -> consistent s -> begin_call s i c = Some s' -> consistent s'.
Proof.
  intros s i c s' NE (C1 & C2 & C3 & C4) B. unfold begin_call in B. destruct (left_to_do s i) eqn:L; [|discriminate].
  assert (s' = Locks (manager s) (timer_lock s) (armed s) (set_todo (left_to_do s) i (code c))) as -> by (destruct c; try congruence; destruct (armed s); congruence).
  pose proof (C2 i) as Mi. pose proof (C3 i) as Ti. rewrite L in Mi, Ti. cbn [has_manager has_timer] in Mi, Ti.
  split; [|split; [|split]]; cbn [left_to_do manager timer_lock]; [..|exact C4]; intros j; unfold set_todo; destruct (j =? i)%nat eqn:J; auto; apply Nat.eqb_eq in J; subst j.
  - unfold rests. destruct c; [|apply in_or_app; right| |congruence]; apply in_or_app; [left; now left|left; now left|right; apply in_or_app; right; now left].
  - rewrite <- Mi. destruct c; try congruence; reflexivity.
  - rewrite <- Ti. destruct c; try congruence; reflexivity.
Qed.

(** As long as the timer does not expire, the calls never wait for each other
    for ever. *)
Theorem C81_no_deadlock : forall l s, Forall (fun m => forall i, m <> Begin i Expired) l -> moves no_locks l = Some s -> ~ deadlocked s.
Proof.
  intros l s F M.
  assert (C : consistent s).
  { assert (C0 : consistent no_locks).
    { split; [intros i; unfold rests; apply in_or_app; left; cbn [suffixes code In]; auto 10|]. split; [reflexivity|]. split; [reflexivity|]. discriminate. }
    revert C0 M. generalize no_locks. induction F as [|m l NE F IH]; intros s0 C0 M; cbn [moves] in M; [assert (s = s0) as -> by congruence; auto|].
    destruct m as [i c|i].
    - destruct (begin_call s0 i c) eqn:B; [|discriminate]. apply (IH l0); auto. apply (consistent_begin s0 i c); auto. intros ->. now elim (NE i).
    - destruct (advance s0 i) eqn:B; [|discriminate]. apply (IH l0); auto. apply (consistent_advance s0 i); auto. }
  destruct C as (C1 & C2 & C3 & C4). intros ((i & NI) & D).
  assert (GO : forall j c r, left_to_do s j = c :: r -> c <> TakeManager \/ manager s = None -> c <> TakeTimer \/ timer_lock s = None -> False).
  { intros j c r L H1 H2. specialize (D j). unfold advance in D. rewrite L in D.
    destruct c; try discriminate D; [destruct H1 as [H1|H1]; [congruence|rewrite H1 in D; discriminate]|destruct H2 as [H2|H2]; [congruence|rewrite H2 in D; discriminate]]. }
  destruct (timer_lock s) as [[j n]|] eqn:T.
  - pose proof (C3 j) as Tj. rewrite Nat.eqb_refl in Tj. destruct (left_to_do s j) as [|c r] eqn:L; [discriminate|].
    pose proof (C1 j) as IN. rewrite L in IN. destruct (rest_next c r IN) as (_ & _ & R2 & _). destruct (R2 Tj). apply (GO j c r L); auto.
  - destruct (manager s) as [j|] eqn:M0.
    + pose proof (C2 j) as Mj. rewrite Nat.eqb_refl in Mj. destruct (left_to_do s j) as [|c r] eqn:L; [discriminate|].
      pose proof (C1 j) as IN. rewrite L in IN. destruct (rest_next c r IN) as (_ & _ & _ & R2 & _). apply (GO j c r L); auto.
    + destruct (left_to_do s i) as [|c r] eqn:L; [now elim NI|]. apply (GO i c r L); auto.
Qed.
Print Assumptions C81_no_deadlock.

Definition ex_moves : list move :=
  [Begin 0 AuthorizeCall] ++ repeat (Advance 0) 6 ++ [Begin 1 Expired] ++ repeat (Advance 1) 5 ++ [Begin 0 AuthorizeCall; Advance 0].

(** The callback of the timer runs with the lock of the timer and takes that of
    the manager; authorizing an update takes them the other way round.  If an
    authorization expires while it is being renewed, both tasks wait for each
    other, and every later call waits too. *)
Theorem C81_deadlock_refuted : ~ (forall l s, moves no_locks l = Some s -> ~ deadlocked s).
Proof.
  intros H. apply (H ex_moves (match moves no_locks ex_moves with Some s => s | None => no_locks end)).
  - vm_compute. reflexivity.
  - split; [exists 0%nat; vm_compute; discriminate|]. intros [|[|i]]; vm_compute; reflexivity.
Qed.
Print Assumptions C81_deadlock_refuted.

(** An authorization for two ticks is used by an update, another one expires. *)
Definition ex_events : list event :=
  [Authorize 0 false; Authorize 2 true; Tick; ResetCalled 3; Disarmed 3 true; ResetDone 3; Tick; Authorize 2 true].
Example C81_example :
  (exists s, run init ex_events = Some s /\ quiet s /\ authorized s = true) /\
  (exists s, run init (ex_events ++ [Tick; Tick; Fired 0; Disarmed 0 true; ResetDone 0]) = Some s /\ quiet s /\ authorized s = false) /\
  run init (ex_events ++ [Tick; Fired 0]) = None /\
  is_allowed init 0 [([], Check 0 0); (ex_events, Check 7 0)] = Some 0 /\
  is_allowed init 0 [([], Check 7 0); (ex_events, Check 7 0)] = Some 7 /\
  is_allowed init 0 [(ex_events, Check 7 0); ([], Check 7 9)] = Some 9 /\
  handler_execute true 0 true [Check 0 0; Check 7 0] = (true, 34, false) /\
  (exists s, moves no_locks [Begin 0 AuthorizeCall; Advance 0; Begin 1 ResetCall; Advance 1; Begin 2 CheckCall] = Some s /\
             advance s 0 = None /\ advance s 2 = None /\ advance s 1 <> None).
Proof.
  split; [exists (match run init ex_events with Some s => s | None => init end); split; [vm_compute; reflexivity|]; split;
    [split; [intros [|[|[|[|i]]]]; vm_compute; reflexivity|vm_compute; intros t X; assert (t = 4) as -> by congruence; reflexivity]|vm_compute; reflexivity]|].
  split; [exists (match run init (ex_events ++ [Tick; Tick; Fired 0; Disarmed 0 true; ResetDone 0]) with Some s => s | None => init end); split; [vm_compute; reflexivity|]; split;
    [split; [intros [|[|[|[|i]]]]; vm_compute; reflexivity|vm_compute; discriminate]|vm_compute; reflexivity]|].
  repeat (split; [vm_compute; reflexivity|]).
  exists (match moves no_locks [Begin 0 AuthorizeCall; Advance 0; Begin 1 ResetCall; Advance 1; Begin 2 CheckCall] with Some s => s | None => no_locks end).
  repeat (split; [vm_compute; reflexivity|]). vm_compute. discriminate.
Qed.
