(** C85: the periodic task. *)
From Coq Require Import List NArith Bool Arith Lia.
From Verif Require Import Base Periodic_Model Periodic_Spec.
Import ListNotations.
Local Open Scope nat_scope.

(** Every handler that can be prepared is, once and in order. *)
Theorem C85_prepare : forall hs,
  (forall i, In i (prepare hs 0) <-> exists h, nth_error hs i = Some (Some h) /\ has_prepare h = true) /\
  (forall a b, a < b < length (prepare hs 0) -> nth a (prepare hs 0) 0 < nth b (prepare hs 0) 0).
Proof.
  assert (G : forall hs k,
    (forall i, In i (prepare hs k) <-> exists h, k <= i /\ nth_error hs (i - k) = Some (Some h) /\ has_prepare h = true) /\
    (forall a b, a < b < length (prepare hs k) -> nth a (prepare hs k) 0 < nth b (prepare hs k) 0)).
  { induction hs as [|[h|] hs IH]; intros k.
    - split; [intros i; split; [intros []|intros (h & _ & H & _); destruct (i - k); discriminate] | cbn; lia].
    - destruct (IH (S k)) as [I O]. cbn [prepare].
      assert (A : forall i, S k <= i -> nth_error (Some h :: hs) (i - k) = nth_error hs (i - S k)).
      { intros i L. replace (i - k) with (S (i - S k)) by lia. reflexivity. }
      split.
      + intros i. rewrite in_app_iff, I. split.
        * intros [H|(x & L & N & P)].
          -- destruct (has_prepare h) eqn:E; [|destruct H]. destruct H as [<-|[]]. exists h. rewrite Nat.sub_diag. now repeat split.
          -- exists x. rewrite A by exact L. repeat split; auto. lia.
        * intros (x & L & N & P). destruct (Nat.eq_dec i k) as [->|D].
          -- rewrite Nat.sub_diag in N. injection N as ->. rewrite P. left. now left.
          -- right. exists x. rewrite A in N by lia. repeat split; auto. lia.
      + destruct (has_prepare h); [|exact O]. cbn [app length]. intros [|a] [|b] L; try lia.
        * cbn [nth]. assert (Q : In (nth b (prepare hs (S k)) 0) (prepare hs (S k))) by (apply nth_In; lia).
          apply I in Q. destruct Q as (x & Q & _). lia.
        * cbn [nth]. apply O. lia.
    - destruct (IH (S k)) as [I O]. cbn [prepare]. split; [|exact O].
      intros i. rewrite I. split; intros (x & L & N & P); exists x.
      + replace (i - k) with (S (i - S k)) by lia. repeat split; auto. lia.
      + destruct (Nat.eq_dec i k) as [->|D]; [rewrite Nat.sub_diag in N; discriminate|].
        replace (i - k) with (S (i - S k)) in N by lia. repeat split; auto. lia. }
  intros hs. destruct (G hs 0) as [I O]. split; [|exact O].
  intros i. rewrite I. rewrite Nat.sub_0_r. split; intros (h & H); exists h; intuition lia.
Qed.
Print Assumptions C85_prepare.

(** What the loop has: the best of the handlers before [k]. *)
Definition best (hs : list (option handler)) (k : nat) (next : option nat) (wait : N) : Prop :=
  (forall j e, j < k -> ~ broken hs j e) /\
  match next with
  | None => wait = MAX /\ forall j w, j < k -> due hs j w -> (MAX <= w)%N
  | Some i => i < k /\ due hs i wait /\ (wait < MAX)%N /\ forall j w, j < k -> due hs j w -> (wait <= w)%N /\ (j < i -> (wait < w)%N)
  end.

Lemma due_fun : forall hs i v w, due hs i v -> due hs i w -> v = w.
Proof.
  intros hs i v w (h & H & A) (h' & H' & B). rewrite H in H'. injection H' as <-. destruct (remaining h) as [[]|]; [easy|congruence|congruence].
Qed.

Lemma choose_best : forall tl hs pre k next wait, hs = pre ++ tl -> length pre = k -> best hs k next wait ->
  match choose tl k next wait with
  | inl e => exists j, broken hs j e /\ forall i e', i < j -> ~ broken hs i e'
  | inr (next', wait') => best hs (length hs) next' wait'
  end.
Proof.
  induction tl as [|o tl IH]; intros hs pre k next wait E L B; cbn [choose].
  - rewrite app_nil_r in E. subst pre k. exact B.
  - assert (N : nth_error hs k = Some o).
    { rewrite E. rewrite nth_error_app2 by lia. now rewrite L, Nat.sub_diag. }
    assert (E1 : hs = (pre ++ [o]) ++ tl) by (rewrite <- app_assoc; exact E).
    assert (E2 : length (pre ++ [o]) = S k) by (rewrite app_length, L; cbn; lia).
    assert (SP : forall P : nat -> Prop, (forall j, j < k -> P j) -> P k -> forall j, j < S k -> P j).
    { intros P P1 P2 j J. destruct (Nat.eq_dec j k) as [->|]; [exact P2|]. apply P1. lia. }
    destruct B as [NB B].
    destruct o as [h|].
    + destruct (remaining h) as [[e|w]|] eqn:R.
      * exists k. split; [exists h; now split|]. intros i e' I. apply NB. exact I.
      * assert (D : due hs k w) by (exists h; rewrite R; now split).
        assert (NB' : forall j e, j < S k -> ~ broken hs j e).
        { intros j e J. revert j J. apply SP; [intros; now apply NB|]. intros (h' & H & H'). congruence. }
        destruct (w <? wait)%N eqn:W; [apply N.ltb_lt in W | apply N.ltb_ge in W]; apply (IH hs (pre ++ [_]) (S k) _ _ E1 E2); split; auto.
        -- split; [lia|]. split; [exact D|]. destruct next as [i|].
           ++ destruct B as (I & DI & M & B). split; [lia|]. intros j v J DJ. destruct (Nat.eq_dec j k) as [->|].
              ** rewrite (due_fun _ _ _ _ DJ D). split; lia.
              ** destruct (B j v ltac:(lia) DJ). split; intros; lia.
           ++ destruct B as (M & B). split; [lia|]. intros j v J DJ. destruct (Nat.eq_dec j k) as [->|].
              ** rewrite (due_fun _ _ _ _ DJ D). split; lia.
              ** pose proof (B j v ltac:(lia) DJ). split; intros; lia.
        -- destruct next as [i|].
           ++ destruct B as (I & DI & M & B). split; [lia|]. split; [exact DI|]. split; [exact M|]. intros j v J DJ. destruct (Nat.eq_dec j k) as [->|].
              ** rewrite (due_fun _ _ _ _ DJ D). split; lia.
              ** apply (B j v ltac:(lia) DJ).
           ++ destruct B as (M & B). split; [exact M|]. intros j v J DJ. destruct (Nat.eq_dec j k) as [->|].
              ** rewrite (due_fun _ _ _ _ DJ D). lia.
              ** apply (B j v ltac:(lia) DJ).
      * assert (D : due hs k 0%N) by (exists h; rewrite R; now split).
        assert (NB' : forall j e, j < S k -> ~ broken hs j e).
        { intros j e J. revert j J. apply SP; [intros; now apply NB|]. intros (h' & H & H'). congruence. }
        destruct (wait =? 0)%N eqn:W; [apply N.eqb_eq in W | apply N.eqb_neq in W]; cbn [negb]; apply (IH hs (pre ++ [_]) (S k) _ _ E1 E2); split; auto.
        -- destruct next as [i|]; [|destruct B as (M & _); rewrite M in W; discriminate].
           destruct B as (I & DI & M & B). split; [lia|]. split; [exact DI|]. split; [exact M|]. intros j v J DJ. destruct (Nat.eq_dec j k) as [->|].
           ++ split; lia.
           ++ apply (B j v ltac:(lia) DJ).
        -- split; [lia|]. split; [exact D|]. split; [reflexivity|]. intros j v J DJ. destruct (Nat.eq_dec j k) as [->|]; [split; lia|].
           split; [lia|]. intros _. destruct next as [i|].
           ++ destruct B as (_ & _ & _ & B). destruct (B j v ltac:(lia) DJ). lia.
           ++ destruct B as (M & B). pose proof (B j v ltac:(lia) DJ). lia.
    + apply (IH hs (pre ++ [_]) (S k) _ _ E1 E2).
      assert (ND : forall w, ~ due hs k w) by (intros w (h & H & _); congruence).
      split; [intros j e J; revert j J; apply SP; [intros; now apply NB | intros (h & H & _); congruence]|].
      destruct next as [i|].
      * destruct B as (I & DI & M & B). split; [lia|]. split; [exact DI|]. split; [exact M|]. intros j v J DJ. destruct (Nat.eq_dec j k) as [->|].
        -- now elim (ND v).
        -- apply (B j v ltac:(lia) DJ).
      * destruct B as (M & B). split; [exact M|]. intros j v J DJ. destruct (Nat.eq_dec j k) as [->|].
        -- now elim (ND v).
        -- apply (B j v ltac:(lia) DJ).
Qed.

Lemma nth_lt : forall hs i w, due hs i w -> i < length hs.
Proof. intros hs i w (h & H & _). apply nth_error_Some. congruence. Qed.

(** The handler run is the one that wants to run first, the first in the list of
    those that want to run at the same time; it is run when it wants to.  If the
    time of a handler cannot be told, nothing is run and the first such error is returned.
    Nothing is run only in that case or if nobody wants to run in less than the
    longest time. *)
Theorem C85_first : forall hs, hs <> [] ->
  match execute_next hs with
  | Ran sleep i => exists w,
      due hs i w /\ sleep = (if (w =? 0)%N then None else Some w) /\
      (forall j e, ~ broken hs j e) /\
      forall j v, due hs j v -> (w <= v)%N /\ (j < i -> (w < v)%N)
  | Failed e => exists j, broken hs j e /\ forall i e', i < j -> ~ broken hs i e'
  | NoHandlers => (forall j e, ~ broken hs j e) /\ forall j v, due hs j v -> (4294967295 <= v)%N
  | InvalidArgument => False
  end.
Proof.
  intros hs NE. pose proof (choose_best hs hs [] 0 None MAX eq_refl eq_refl) as H.
  assert (B0 : best hs 0 None MAX) by (split; [intros; lia | split; [reflexivity | intros; lia]]).
  specialize (H B0). unfold execute_next. destruct hs as [|o hs]; [congruence|]. set (l := o :: hs) in *.
  destruct (choose l 0 None MAX) as [e|[[i|] w]]; [exact H| |].
  - destruct H as (NB & I & D & M & B). exists w. split; [exact D|]. split; [now destruct (w =? 0)%N|]. split.
    + intros j e X. apply (NB j e); [|exact X]. destruct X as (h & X & _). apply nth_error_Some. congruence.
    + intros j v DJ. apply B; [|exact DJ]. eapply nth_lt; exact DJ.
  - destruct H as (NB & M & B). split.
    + intros j e X. apply (NB j e); [|exact X]. destruct X as (h & X & _). apply nth_error_Some. congruence.
    + intros j v DJ. apply (B j v); [|exact DJ]. eapply nth_lt; exact DJ.
Qed.
Print Assumptions C85_first.

(** In terms of the clock: with a handler that wants to run at [t], the next handler
    is run no later than [t], or at once if [t] is past.  A handler whose time is past
    waits only for handlers before it in the list whose time is past too. *)
Theorem C85_in_time : forall now times j t,
  nth_error times j = Some (Some t) -> (t - now < 4294967295)%N ->
  exists sleep i,
    execute_next (at_time now times) = Ran sleep i /\
    (now + match sleep with Some s => s | None => 0 end <= N.max now t)%N /\
    ((t <= now)%N -> i <= j /\ (nth_error times i = Some None \/ exists u, nth_error times i = Some (Some u) /\ (u <= now)%N)).
Proof.
  intros now times j t J T. set (hs := at_time now times).
  assert (D : due hs j (t - now)%N).
  { unfold hs, at_time. eexists. rewrite nth_error_map, J. split; [reflexivity|]. reflexivity. }
  assert (NE : hs <> []) by (intros Z; destruct D as (h & D & _); rewrite Z in D; destruct j; discriminate).
  pose proof (C85_first hs NE) as F.
  destruct (execute_next hs) as [| |e|sleep i] eqn:X.
  - destruct F.
  - destruct F as [_ F]. specialize (F _ _ D). lia.
  - destruct F as (k & (h & K & R) & _). unfold hs, at_time in K. rewrite nth_error_map in K.
    destruct (nth_error times k) as [[u|]|]; cbn in K; try discriminate; injection K as <-; discriminate.
  - destruct F as (w & DW & -> & _ & F). destruct (F _ _ D) as [LE LT]. eexists _, i. split; [reflexivity|].
    split; [destruct (N.eqb_spec w 0); lia|]. intros TN. assert (W : w = 0%N) by lia. split.
    + destruct (Nat.le_gt_cases i j) as [|G]; [assumption|]. specialize (LT G). lia.
    + destruct DW as (h & K & R). unfold hs, at_time in K. rewrite nth_error_map in K.
      destruct (nth_error times i) as [[u|]|]; cbn in K; try discriminate; injection K as <-; cbn in R.
      * right. exists u. split; [reflexivity|]. lia.
      * now left.
Qed.
Print Assumptions C85_in_time.

(** REFUTED: that every handler is run at some time.  While the first handler is
    ready each time, no other is run, however long its time is past. *)
Theorem C85_starved_refuted : forall now t times, (t <= now)%N ->
  execute_next (at_time now (None :: times)) = Ran None 0 /\ execute_next (at_time now (Some t :: times)) = Ran None 0.
Proof.
  intros now t times T.
  assert (Z : forall l k, choose (at_time now l) k (Some 0) 0%N = inr (Some 0, 0%N)).
  { induction l as [|[u|] l IH]; intros k; cbn [at_time map choose remaining]; [reflexivity| |].
    - destruct (u - now <? 0)%N eqn:E; [apply N.ltb_lt in E; lia|]. apply IH.
    - cbn [N.eqb negb]. apply IH. }
  unfold execute_next. cbn [at_time map choose remaining]. split.
  - change (negb (MAX =? 0)%N) with true. cbv iota. pose proof (Z times 1) as Q. unfold at_time in Q. rewrite Q. reflexivity.
  - replace (t - now)%N with 0%N by lia. change (0 <? MAX)%N with true. cbv iota.
    pose proof (Z times 1) as Q. unfold at_time in Q. rewrite Q. reflexivity.
Qed.
Print Assumptions C85_starved_refuted.

(** Non-vacuity. *)
Example C85_example :
  execute_next (at_time 100 [Some 130; Some 120; Some 120]%N) = Ran (Some 20%N) 1 /\
  execute_next (at_time 100 [Some 130; Some 90; None]%N) = Ran None 1 /\
  execute_next [None; Some (Handler true (Some (inr 5%N))); Some (Handler true (Some (inl 7%N)))] = Failed 7%N /\
  execute_next [None; Some (Handler true (Some (inr MAX)))] = NoHandlers /\
  prepare [None; Some (Handler true None); Some (Handler false None); Some (Handler true None)] 0 = [1; 3].
Proof. vm_compute. repeat split. Qed.
