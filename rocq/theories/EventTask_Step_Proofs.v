(** Every step of the event task keeps the invariant and follows the atomic
    machine. *)
From Coq Require Import List NArith ZArith Lia Bool Arith.
From Verif Require Import Base EventTask_Model EventTask_Spec EventTask_Proofs.
Import ListNotations.
Local Open Scope nat_scope.

Definition advance (hs : list nat) (x : phase * mem) (evs : list event) (y : phase * mem) : Prop :=
  (evs = [] /\ x = y) \/ exists e, evs = [e] /\ atomic hs x e y.

Definition inert (x : client) : Prop :=
  match x with
  | Idle => True
  | In _ _ pc => holds pc = false /\ post pc = false /\ filling pc = false
  end.

Lemma inert_frame : forall c b s ph m t x s',
  Inv c b s ph m -> inert (s_clients s t) -> inert x ->
  s_clients s' = set_client (s_clients s) t x ->
  s_task s' = s_task s -> s_worker s' = s_worker s -> s_lock s' = s_lock s ->
  s_notifying s' = s_notifying s -> s_running s' = s_running s -> s_action s' = s_action s ->
  s_len s' = s_len s -> s_buf s' = s_buf s -> s_mem s' = s_mem s -> s_count s' = s_count s ->
  (forall n o pc, x = In n o pc -> pc_ok c s' ph o pc /\ proper_op (c_handlers c) o) ->
  Inv c b s' ph m.
Proof.
  intros c b s ph m t x s' I Hi Hx Ecl Et Ew El En Er Ea Ele Eb Em Eco Hpc.
  destruct I as [IL1 IL2 IL IN1 IN2 IP IPO IPH IM IB IS].
  assert (Ct : s_clients s' t = x) by (rewrite Ecl; apply set_same).
  assert (Cu : forall u, u <> t -> s_clients s' u = s_clients s u)
    by (intros; rewrite Ecl; apply set_other; auto).
  assert (Hsc : same_ctx s s') by (repeat split; assumption).
  assert (Hnt : forall n o pc, s_clients s t = In n o pc ->
            holds pc = false /\ post pc = false /\ filling pc = false).
  { intros n o pc H. rewrite H in Hi. exact Hi. }
  assert (Hnx : forall n o pc, x = In n o pc ->
            holds pc = false /\ post pc = false /\ filling pc = false).
  { intros n o pc H. rewrite H in Hx. exact Hx. }
  assert (Hnp : no_post s -> no_post s').
  { intros H u n o pc H1. destruct (Nat.eq_dec u t) as [->|Hu].
    - rewrite Ct in H1. apply Hnx in H1. tauto.
    - rewrite Cu in H1 by assumption. eapply H; eauto. }
  constructor.
  - intros u n o pc H1 H2. rewrite El. destruct (Nat.eq_dec u t) as [->|Hu].
    + rewrite Ct in H1. apply Hnx in H1. destruct H1. congruence.
    + rewrite Cu in H1 by assumption. eauto.
  - rewrite Ew, El. exact IL2.
  - rewrite El, Ew. destruct (s_lock s) as [[u|]|]; auto.
    destruct (Nat.eq_dec u t) as [->|Hu].
    + destruct IL as (n & o & pc & A & B). apply Hnt in A. destruct A. congruence.
    + rewrite Cu by assumption. exact IL.
  - intros u n o pc H1 H2. rewrite En. destruct (Nat.eq_dec u t) as [->|Hu].
    + rewrite Ct in H1. apply Hnx in H1. destruct H1 as (_ & _ & H1). congruence.
    + rewrite Cu in H1 by assumption. eauto.
  - rewrite En. intros H. destruct (IN2 H) as (u & n & o & pc & A & B).
    destruct (Nat.eq_dec u t) as [->|Hu].
    + apply Hnt in A. destruct A as (_ & _ & A). congruence.
    + exists u, n, o, pc. rewrite Cu by assumption. auto.
  - intros u n o pc H1. destruct (Nat.eq_dec u t) as [->|Hu].
    + rewrite Ct in H1. eauto.
    + rewrite Cu in H1 by assumption. destruct (IP _ _ _ _ H1) as [A B]. split; [|exact B].
      eapply pc_ok_same; eauto.
  - intros u n o pc v n' o' pc' H1 P1 H2 P2.
    destruct (Nat.eq_dec u t) as [->|Hu].
    + rewrite Ct in H1. apply Hnx in H1. destruct H1 as (_ & H1 & _). congruence.
    + destruct (Nat.eq_dec v t) as [->|Hv].
      * rewrite Ct in H2. apply Hnx in H2. destruct H2 as (_ & H2 & _). congruence.
      * rewrite Cu in H1 by assumption. rewrite Cu in H2 by assumption.
        eapply IPO with (t := u) (t' := v); eauto.
  - destruct ph as [|k| |r|r]; cbn [phase_ok] in *; rewrite ?Et, ?Ew, ?Er, ?Eco; auto.
    + destruct IPH as (A & B & C & D). split; [exact A|]. split; [exact B|].
      split; [eapply ctx_same; eauto|].
      destruct D as [(D1 & D2 & u & n1 & o1 & pc1 & D3 & D4)|[(D1 & D2 & D3)|(D1 & D2 & D3)]].
      * left. split; [exact D1|]. split; [exact D2|].
        destruct (Nat.eq_dec u t) as [->|Hu].
        -- apply Hnt in D3. destruct D3 as (_ & D3 & _). congruence.
        -- exists u, n1, o1, pc1. rewrite Cu by assumption. auto.
      * right. left. auto.
      * right. right. auto.
    + destruct IPH as (A & B & C & D & E'). split; [exact A|]. split; [exact B|].
      split; [eapply ctx_same; eauto|]. auto.
  - rewrite Em, IM. unfold owner_mem. rewrite El. destruct (s_lock s) as [[u|]|]; auto.
    destruct (Nat.eq_dec u t) as [->|Hu].
    + destruct IL as (n & o & pc & A & B). apply Hnt in A. destruct A. congruence.
    + rewrite Cu by assumption. reflexivity.
  - congruence.
  - intros Hb. destruct (IS Hb) as (A & B & C & D). rewrite Ew, Eco. auto.
Qed.

(** The memory seen by the lock owner after one of its steps. *)
Lemma owner_mem_at : forall s m t n o pc,
  s_lock s = Some (ByClient t) -> s_clients s t = In n o pc ->
  owner_mem s m = match o with Submit r => if written pc then begun r m else m | _ => m end.
Proof.
  intros s m t n o pc Hl Hc. unfold owner_mem. rewrite Hl, Hc. destruct o; reflexivity.
Qed.

Lemma owner_mem_frame : forall c b s ph m t n o pc s' pc',
  Inv c b s ph m -> s_clients s t = In n o pc -> holds pc = false ->
  s_clients s' = set_client (s_clients s) t (In n o pc') ->
  s_lock s' = s_lock s -> owner_mem s' m = owner_mem s m.
Proof.
  intros c b s ph m t n o pc s' pc' I Hc Hh Ecl El. unfold owner_mem. rewrite El.
  pose proof (i_lock _ _ _ _ _ I) as IL. destruct (s_lock s) as [[u|]|]; auto.
  destruct (Nat.eq_dec u t) as [->|Hu].
  - destruct IL as (n1 & o1 & pc1 & A & B). congruence.
  - rewrite Ecl, set_other by assumption. reflexivity.
Qed.

Lemma mem_of_free : forall c b s ph m, Inv c b s ph m -> s_lock s = None -> s_mem s = m.
Proof. intros c b s ph m I H. rewrite (i_mem _ _ _ _ _ I). unfold owner_mem. rewrite H. auto. Qed.

Lemma running_phase : forall c b s ph m, Inv c b s ph m -> s_task s = true ->
  ((s_running s < 0)%Z <-> ph = Ready).
Proof.
  intros c b s ph m I Ht. pose proof (i_phase _ _ _ _ _ I) as P.
  destruct ph as [|k| |r|r]; cbn [phase_ok] in P.
  - destruct P as (A & _). congruence.
  - destruct P as (_ & A & _). rewrite A. split; [lia|discriminate].
  - destruct P as (_ & A & _). rewrite A. split; [auto|lia].
  - destruct P as (_ & (i & A & _) & _). rewrite A. split; [lia|discriminate].
  - destruct P as (_ & (i & A & _) & _). rewrite A. split; [lia|discriminate].
Qed.

Lemma task_phase : forall c b s ph m, Inv c b s ph m -> (s_task s = true <-> ph <> Off).
Proof.
  intros c b s ph m I. pose proof (i_phase _ _ _ _ _ I) as P.
  destruct ph as [|k| |r|r]; cbn [phase_ok] in P; destruct P as (A & _); rewrite A;
    split; congruence.
Qed.

Lemma notifying_lock : forall c b s ph m t n o pc, Inv c b s ph m ->
  s_clients s t = In n o pc -> holds pc = true -> s_notifying s = filling pc.
Proof.
  intros c b s ph m t n o pc I Hc Hh. destruct (filling pc) eqn:E.
  - eapply i_notif_t; eauto.
  - destruct (s_notifying s) eqn:En; [|reflexivity]. exfalso.
    destruct (i_notif _ _ _ _ _ I En) as (u & n1 & o1 & pc1 & A & B).
    assert (Hh1 : holds pc1 = true) by (destruct pc1; cbn in *; congruence).
    pose proof (i_lock_c _ _ _ _ _ I _ _ _ _ A Hh1) as L1.
    pose proof (i_lock_c _ _ _ _ _ I _ _ _ _ Hc Hh) as L2.
    rewrite L1 in L2. injection L2 as ->. rewrite Hc in A. injection A as <- <- <-. congruence.
Qed.

(** The commit. *)
Lemma commit_frame : forall c b s m t n r i,
  Inv c b s Ready m -> s_clients s t = In n (Submit r) NFind ->
  nth_error (c_handlers c) i = Some (r_handler r) ->
  Inv c b (at_pc (emit (with_running s (Z.of_nat i)) (Commit n r)) t n (Submit r) (NClear Success))
    (Pending r) (begun r m).
Proof.
  intros c b s m t n r i I Hc Hi.
  pose proof (i_lock_c _ _ _ _ _ I _ _ _ _ Hc eq_refl) as Hl.
  pose proof (notifying_lock _ _ _ _ _ _ _ _ _ I Hc eq_refl) as Hn. cbn in Hn.
  pose proof I as I0.
  destruct I as [IL1 IL2 IL IN1 IN2 IP IPO IPH IM IB IS].
  destruct (IP _ _ _ _ Hc) as [(r' & E & Hle & _ & Hctx) Hprop]. injection E as <-.
  set (s' := at_pc _ _ _ _ _).
  assert (Ct : s_clients s' t = In n (Submit r) (NClear Success)) by apply set_same.
  assert (Cu : forall u, u <> t -> s_clients s' u = s_clients s u)
    by (intros; apply set_other; auto).
  assert (Hnop : forall u n1 o1 pc1, s_clients s u = In n1 o1 pc1 -> post pc1 = false).
  { intros u n1 o1 pc1 H1. destruct (IP _ _ _ _ H1) as [A _].
    destruct pc1; try reflexivity; cbn in A; destruct A as (? & ? & ? & ?); discriminate. }
  assert (Hnoh : forall u n1 o1 pc1, u <> t -> s_clients s u = In n1 o1 pc1 -> holds pc1 = false).
  { intros u n1 o1 pc1 Hu H1. destruct (holds pc1) eqn:E; [|reflexivity].
    pose proof (IL1 _ _ _ _ H1 E). congruence. }
  constructor.
  - intros u n1 o1 pc1 H1 H2. destruct (Nat.eq_dec u t) as [->|Hu]; [exact Hl|].
    rewrite Cu in H1 by assumption. rewrite (Hnoh _ _ _ _ Hu H1) in H2. discriminate.
  - intros H. cbn in H. pose proof (IL2 H). congruence.
  - subst s'. cbn [s_lock at_pc emit with_running]. rewrite Hl. eauto 6.
  - intros; exact Hn.
  - intros _. exists t, n, (Submit r), (NClear Success). auto.
  - intros u n1 o1 pc1 H1. destruct (Nat.eq_dec u t) as [->|Hu].
    + rewrite Ct in H1. injection H1 as <- <- <-. split; [|exact Hprop]. cbn. eauto.
    + rewrite Cu in H1 by assumption. destruct (IP _ _ _ _ H1) as [A B]. split; [|exact B].
      revert A. apply pc_ok_phase with (ph := Ready); [discriminate|right; eapply Hnoh; eauto|intros; discriminate].
  - intros u n1 o1 pc1 v n2 o2 pc2 H1 P1 H2 P2.
    destruct (Nat.eq_dec u t) as [->|Hu]; destruct (Nat.eq_dec v t) as [->|Hv]; auto.
    + rewrite Cu in H2 by assumption. rewrite (Hnop _ _ _ _ H2) in P2. discriminate.
    + rewrite Cu in H1 by assumption. rewrite (Hnop _ _ _ _ H1) in P1. discriminate.
    + rewrite Cu in H1 by assumption. rewrite (Hnop _ _ _ _ H1) in P1. discriminate.
  - cbn [phase_ok] in *. destruct IPH as (A & B & C & D).
    split; [exact A|]. split; [exists i; auto|]. split; [exact Hctx|].
    left. split; [exact D|]. split; [exact C|]. exists t, n, (Submit r), (NClear Success). auto.
  - rewrite (owner_mem_at s' (begun r m) t n (Submit r) (NClear Success) Hl Ct).
    cbn [written]. subst s'. cbn [s_mem at_pc emit with_running].
    rewrite IM. rewrite (owner_mem_at s m t n (Submit r) NFind Hl Hc). reflexivity.
  - exact IB.
  - intros Hb. destruct (IS Hb) as (_ & [A|A] & _); discriminate.
Qed.

Lemma firstn_upd_snoc : forall (l d : list N) i, i < length l -> i < length d ->
  firstn i l = firstn i d -> firstn (S i) (upd l i (nth i d 0%N)) = firstn (S i) d.
Proof.
  intros l d i Hl Hd H. rewrite upd_split by assumption.
  assert (El : length (firstn i l) = i) by (rewrite firstn_length; lia).
  rewrite firstn_app, El. replace (S i - i) with 1 by lia.
  rewrite firstn_all2 by lia. cbn [firstn]. rewrite H.
  clear - Hd. revert d Hd. induction i as [|i IH]; intros [|x d] Hd; cbn in Hd; try lia.
  - reflexivity.
  - cbn [firstn nth app]. f_equal. apply IH. lia.
Qed.

Ltac keep := apply lm_keep; reflexivity.
Ltac same := left; repeat split; reflexivity.

(** What every plain step has to show. *)
Ltac plain I Hc :=
  eapply (client_frame _ _ _ _ _ _ _ _ _ _ _ _ I Hc);
  [ reflexivity | reflexivity | reflexivity | | | | reflexivity | | | | | | | ].

Lemma client_inv : forall c b s ph m t s', Inv c b s ph m -> client_step c s t = Some s' ->
  exists ph' m' evs, s_trace s' = s_trace s ++ evs /\
    advance (c_handlers c) (ph, m) evs (ph', m') /\ Inv c b s' ph' m'.
Proof.
  intros c b s ph m t s' I H. unfold client_step in H.
  destruct (s_clients s t) as [|n o pc] eqn:Hc; [discriminate|].
  destruct (i_pc _ _ _ _ _ I _ _ _ _ Hc) as [Hpc Hprop].
  assert (Hlk : holds pc = true -> s_lock s = Some (ByClient t))
    by (eapply i_lock_c; eauto).
  assert (Hnf : holds pc = true -> s_notifying s = filling pc)
    by (eapply notifying_lock; eauto).
  assert (Hm : holds pc = true -> s_mem s =
            match o with Submit r => if written pc then begun r m else m | _ => m end).
  { intros Hh. rewrite (i_mem _ _ _ _ _ I). apply (owner_mem_at s m t n o pc); auto. }
  assert (Hbuf : length (s_buf s) = c_capacity c) by (apply (i_buf _ _ _ _ _ I)).
  assert (Quiet : forall s1, s_trace s1 = s_trace s -> Inv c b s1 ph m ->
    exists ph' m' evs, s_trace s1 = s_trace s ++ evs /\
      advance (c_handlers c) (ph, m) evs (ph', m') /\ Inv c b s1 ph' m').
  { intros s1 E1 E2. exists ph, m, []. rewrite app_nil_r. split; [exact E1|]. split; [|exact E2].
    left. auto. }
  assert (Loud : forall s1 e m', s_trace s1 = s_trace s ++ [e] ->
    atomic (c_handlers c) (ph, m) e (ph, m') -> Inv c b s1 ph m' ->
    exists ph' m' evs, s_trace s1 = s_trace s ++ evs /\
      advance (c_handlers c) (ph, m) evs (ph', m') /\ Inv c b s1 ph' m').
  { intros s1 e m' E1 E2 E3. exists ph, m', [e]. split; [exact E1|]. split; [|exact E3].
    right. eauto. }
  destruct pc.
  - (* CLength *)
    destruct Hpc as [r ->].
    assert (G : forall pc', holds pc' = false -> post pc' = false -> filling pc' = false ->
              pc_ok c (at_pc s t n (Submit r) pc') ph (Submit r) pc' ->
              Inv c b (at_pc s t n (Submit r) pc') ph m).
    { intros pc' A B C D. eapply (inert_frame _ _ _ _ _ t _ _ I);
        [rewrite Hc; cbn; auto | | reflexivity..| ]; [cbn; auto|].
      intros n1 o1 pc1 E. injection E as <- <- <-. auto. }
    destruct (c_capacity c <? r_len r) eqn:E; injection H as <-; apply Quiet; try reflexivity;
      apply G; try reflexivity; cbn; auto.
    apply Nat.ltb_ge in E. eauto.
  - (* CTask *)
    destruct Hpc as (r & -> & Hle).
    assert (G : forall s1 pc', s1 = s \/ s1 = emit s (Missing n) ->
              holds pc' = false -> post pc' = false -> filling pc' = false ->
              pc_ok c (at_pc s1 t n (Submit r) pc') ph (Submit r) pc' ->
              Inv c b (at_pc s1 t n (Submit r) pc') ph m).
    { intros s1 pc' Hs A B C D. destruct Hs; subst s1; (eapply (inert_frame _ _ _ _ _ t _ _ I);
        [rewrite Hc; cbn; auto | | reflexivity..| ]; [cbn; auto|]);
      intros n1 o1 pc1 E; injection E as <- <- <-; auto. }
    destruct (s_task s) eqn:E; injection H as <-.
    + apply Quiet; [reflexivity|]. apply G; auto. cbn. exists r.
      apply (task_phase _ _ _ _ _ I) in E. auto.
    + apply (Loud _ (Missing n) m); [reflexivity| |apply G; auto; exact Logic.I].
      destruct ph; try constructor; exfalso;
        (assert (s_task s = true) by (apply (task_phase _ _ _ _ _ I); discriminate); congruence).
  - (* CLock *)
    destruct (s_lock s) eqn:El; [discriminate|]. injection H as <-.
    apply Quiet; [reflexivity|]. plain I Hc.
    + apply lm_take; auto.
    + same.
    + exact Hbuf.
    + exact Hpc.
    + left. auto.
    + intros [A|A]; discriminate.
    + intros A; discriminate.
    + left; auto.
    + erewrite owner_mem_at; [|reflexivity|apply set_same].
      destruct o; cbn [written]; eapply (mem_of_free _ _ _ _ _ I El).
    + intros; repeat split; reflexivity.
  - (* CTest *)
    specialize (Hlk eq_refl). specialize (Hnf eq_refl). specialize (Hm eq_refl).
    destruct Hpc as (r & -> & Hle & Hoff). cbn [filling written] in Hnf, Hm.
    rewrite Hnf in H. cbn [negb andb] in H.
    assert (Ht : s_task s = true) by (apply (task_phase _ _ _ _ _ I); auto).
    destruct (s_running s <? 0)%Z eqn:Er; injection H as <-.
    + apply Z.ltb_lt in Er. apply (running_phase _ _ _ _ _ I Ht) in Er.
      apply Quiet; [reflexivity|]. plain I Hc.
      * keep.
      * same.
      * exact Hbuf.
      * cbn. eauto.
      * right. left. auto.
      * intros [A|A]; discriminate.
      * intros A; discriminate.
      * left; auto.
      * erewrite owner_mem_at; [|exact Hlk|apply set_same]. exact Hm.
      * intros; repeat split; reflexivity.
    + apply (Loud _ (Refuse n) m); [reflexivity| |].
      * constructor; [exact Hoff|]. intros A. apply (running_phase _ _ _ _ _ I Ht) in A. lia.
      * plain I Hc.
        -- keep.
        -- same.
        -- exact Hbuf.
        -- cbn. eauto.
        -- left. auto.
        -- intros [A|A]; discriminate.
        -- intros A; discriminate.
        -- left; auto.
        -- erewrite owner_mem_at; [|exact Hlk|apply set_same]. exact Hm.
        -- intros; repeat split; reflexivity.
  - (* CBusy *)
    specialize (Hm eq_refl). injection H as <-. apply Quiet; [reflexivity|]. plain I Hc.
    + apply lm_drop; reflexivity.
    + same.
    + exact Hbuf.
    + exact Logic.I.
    + left. auto.
    + intros [A|A]; discriminate.
    + intros A; discriminate.
    + left; auto.
    + unfold owner_mem. cbn. rewrite Hm. destruct o; reflexivity.
    + intros; repeat split; reflexivity.
  - (* CStatus *)
    specialize (Hlk eq_refl). specialize (Hm eq_refl).
    destruct Hpc as (r & -> & Hle & ->). cbn [written] in Hm.
    assert (exists s1, s_trace s1 = s_trace s /\ s' = at_pc s1 t n (Submit r) CAction /\
              s1 = with_mem s (begun r m)) as (s1 & E1 & -> & ->).
    { exists (with_mem s (begun r m)). split; [reflexivity|]. split; [|reflexivity].
      unfold begun. destruct (r_status r) as [[cell v]|]; injection H as <-.
      - rewrite Hm. reflexivity.
      - unfold with_mem, at_pc. cbn. rewrite Hm. reflexivity. }
    apply Quiet; [reflexivity|]. plain I Hc.
    + keep.
    + same.
    + exact Hbuf.
    + cbn. eauto.
    + left. auto.
    + intros [A|A]; discriminate.
    + intros A; discriminate.
    + left; auto.
    + erewrite owner_mem_at; [|exact Hlk|apply set_same]. reflexivity.
    + intros r0 [A|A]; discriminate.
  - (* CAction *)
    specialize (Hlk eq_refl). specialize (Hm eq_refl).
    destruct Hpc as (r & -> & Hle & ->). injection H as <-.
    apply Quiet; [reflexivity|]. plain I Hc.
    + keep.
    + right. reflexivity.
    + exact Hbuf.
    + cbn. eauto.
    + left. auto.
    + intros [A|A]; discriminate.
    + intros A; discriminate.
    + left; auto.
    + erewrite owner_mem_at; [|exact Hlk|apply set_same]. exact Hm.
    + intros r0 [A|A]; discriminate.
  - (* CLen *)
    specialize (Hlk eq_refl). specialize (Hm eq_refl).
    destruct Hpc as (r & -> & Hle & -> & Ha).
    destruct (r_data r) as [d|] eqn:Ed; injection H as <-; (apply Quiet; [reflexivity|]);
      plain I Hc.
    + keep.
    + right. reflexivity.
    + exact Hbuf.
    + cbn. exists r, d. do 5 (split; [auto|]). split; [reflexivity|]. split; [lia|reflexivity].
    + left. auto.
    + intros [A|A]; discriminate.
    + intros A; discriminate.
    + left; auto.
    + erewrite owner_mem_at; [|exact Hlk|apply set_same]. exact Hm.
    + intros r0 [A|A]; discriminate.
    + keep.
    + right. reflexivity.
    + exact Hbuf.
    + cbn. exists r. do 3 (split; [auto|]). split; [exact Ha|].
      unfold payload. rewrite Ed. reflexivity.
    + left. auto.
    + intros [A|A]; discriminate.
    + intros A; discriminate.
    + left; auto.
    + erewrite owner_mem_at; [|exact Hlk|apply set_same]. exact Hm.
    + intros r0 [A|A]; discriminate.
  - (* CCopy *)
    specialize (Hlk eq_refl). specialize (Hm eq_refl).
    destruct Hpc as (r & d & -> & Hle & -> & Ha & Ed & El & Hi & Hf).
    cbn [proper_op] in Hprop. rewrite Ed in Hprop. destruct Hprop as [_ Hd].
    rewrite Ed in H.
    destruct (i <? r_len r) eqn:Ei; injection H as <-; (apply Quiet; [reflexivity|]);
      plain I Hc.
    + keep.
    + right. reflexivity.
    + cbn. rewrite length_upd. exact Hbuf.
    + apply Nat.ltb_lt in Ei. cbn [pc_ok at_pc with_buf s_action s_len s_buf].
      exists r, d. do 6 (split; [auto|]). split; [lia|].
      apply firstn_upd_snoc; [lia|lia|exact Hf].
    + left. auto.
    + intros [A|A]; discriminate.
    + intros A; discriminate.
    + left; auto.
    + erewrite owner_mem_at; [|exact Hlk|apply set_same]. exact Hm.
    + intros r0 [A|A]; discriminate.
    + keep.
    + right. reflexivity.
    + exact Hbuf.
    + apply Nat.ltb_ge in Ei. assert (i = r_len r) by lia. subst i.
      cbn. exists r. do 3 (split; [auto|]). split; [exact Ha|].
      unfold payload. rewrite Ed. cbn. rewrite El. exact Hf.
    + left. auto.
    + intros [A|A]; discriminate.
    + intros A; discriminate.
    + left; auto.
    + erewrite owner_mem_at; [|exact Hlk|apply set_same]. exact Hm.
    + intros r0 [A|A]; discriminate.
  - (* NTask *)
    specialize (Hlk eq_refl). specialize (Hm eq_refl).
    destruct Hpc as (r & -> & Hle & -> & Hx).
    assert (Ht : s_task s = true) by (apply (task_phase _ _ _ _ _ I); discriminate).
    rewrite Ht in H. injection H as <-. apply Quiet; [reflexivity|]. plain I Hc.
    + keep.
    + same.
    + exact Hbuf.
    + cbn. exists r. auto.
    + left. auto.
    + intros [A|A]; discriminate.
    + intros A; discriminate.
    + left; auto.
    + erewrite owner_mem_at; [|exact Hlk|apply set_same]. exact Hm.
    + intros r0 [A|A]; discriminate.
  - (* NRunning *)
    specialize (Hlk eq_refl). specialize (Hm eq_refl).
    destruct Hpc as (r & -> & Hle & -> & Hx).
    assert (Ht : s_task s = true) by (apply (task_phase _ _ _ _ _ I); discriminate).
    assert (Hr : (s_running s < 0)%Z) by (apply (running_phase _ _ _ _ _ I Ht); reflexivity).
    apply Z.ltb_lt in Hr. rewrite Hr in H. injection H as <-.
    apply Quiet; [reflexivity|]. plain I Hc.
    + keep.
    + same.
    + exact Hbuf.
    + cbn. exists r. auto.
    + left. auto.
    + intros [A|A]; discriminate.
    + intros A; discriminate.
    + left; auto.
    + erewrite owner_mem_at; [|exact Hlk|apply set_same]. exact Hm.
    + intros r0 [A|A]; discriminate.
  - (* NNotifying *)
    specialize (Hlk eq_refl). specialize (Hm eq_refl). specialize (Hnf eq_refl).
    destruct Hpc as (r & -> & Hle & -> & Hx). cbn [filling] in Hnf. rewrite Hnf in H.
    injection H as <-. apply Quiet; [reflexivity|]. plain I Hc.
    + keep.
    + same.
    + exact Hbuf.
    + cbn. exists r. auto.
    + left. auto.
    + intros [A|A]; discriminate.
    + intros A; discriminate.
    + left; auto.
    + erewrite owner_mem_at; [|exact Hlk|apply set_same]. exact Hm.
    + intros r0 [A|A]; discriminate.
  - (* NFind *)
    destruct Hpc as (r & -> & Hle & -> & Hx). cbn [proper_op] in Hprop.
    destruct Hprop as [Hin _]. destruct (find_handler_in _ _ Hin) as [i Hi]. rewrite Hi in H.
    injection H as <-. apply find_handler_spec in Hi.
    exists (Pending r), (begun r m), [Commit n r]. split; [reflexivity|]. split.
    + right. exists (Commit n r). split; [reflexivity|]. constructor. exact Hin.
    + apply commit_frame; auto.
  - (* NClear *)
    specialize (Hlk eq_refl). specialize (Hm eq_refl).
    destruct Hpc as (r & -> & -> & ->). injection H as <-.
    apply Quiet; [reflexivity|]. plain I Hc.
    + keep.
    + same.
    + exact Hbuf.
    + cbn. eauto.
    + right. right. auto.
    + eauto.
    + auto.
    + left; auto.
    + erewrite owner_mem_at; [|exact Hlk|apply set_same]. exact Hm.
    + intros; repeat split; reflexivity.
  - (* NUnlock *)
    specialize (Hm eq_refl).
    destruct Hpc as (r & -> & -> & ->). injection H as <-.
    apply Quiet; [reflexivity|]. plain I Hc.
    + apply lm_drop; reflexivity.
    + same.
    + exact Hbuf.
    + cbn. eauto.
    + left. auto.
    + eauto.
    + auto.
    + left; auto.
    + unfold owner_mem. cbn. exact Hm.
    + intros; repeat split; reflexivity.
  - (* NCheck *)
    destruct Hpc as (r & -> & -> & ->).
    assert (Hr : (0 <=? s_running s)%Z = true).
    { destruct (i_phase _ _ _ _ _ I) as (_ & (i & A & _) & _). rewrite A. apply Z.leb_le. lia. }
    rewrite Hr in H. injection H as <-.
    apply Quiet; [reflexivity|]. plain I Hc.
    + keep.
    + same.
    + exact Hbuf.
    + cbn. eauto.
    + left. auto.
    + eauto.
    + auto.
    + left; auto.
    + rewrite (owner_mem_frame _ _ _ _ _ _ _ _ _ _ (NGive Success) I Hc); try reflexivity.
      apply (i_mem _ _ _ _ _ I).
    + intros; repeat split; reflexivity.
  - (* NGive *)
    destruct Hpc as (r & -> & -> & ->). injection H as <-.
    apply Quiet; [reflexivity|]. plain I Hc.
    + keep.
    + same.
    + exact Hbuf.
    + exact Logic.I.
    + left. auto.
    + eauto.
    + intros; discriminate.
    + right; auto.
    + rewrite (owner_mem_frame _ _ _ _ _ _ _ _ _ _ (CRet Success) I Hc); try reflexivity.
      apply (i_mem _ _ _ _ _ I).
    + intros; repeat split; reflexivity.
  - (* SLock *)
    destruct (s_lock s) eqn:El; [discriminate|]. injection H as <-.
    apply Quiet; [reflexivity|]. plain I Hc.
    + apply lm_take; auto.
    + same.
    + exact Hbuf.
    + exact Hpc.
    + left. auto.
    + intros [A|A]; discriminate.
    + intros A; discriminate.
    + left; auto.
    + erewrite owner_mem_at; [|reflexivity|apply set_same].
      destruct o; cbn [written]; eapply (mem_of_free _ _ _ _ _ I El).
    + intros; repeat split; reflexivity.
  - (* SBody *)
    specialize (Hlk eq_refl). specialize (Hm eq_refl). destruct Hpc as (f & ->).
    destruct (f (s_mem s)) as [m' v] eqn:Ef. injection H as <-. rewrite Hm in Ef.
    apply (Loud _ (Access n f v) m'); [reflexivity|constructor; exact Ef|]. plain I Hc.
    + keep.
    + same.
    + exact Hbuf.
    + cbn. eauto.
    + left. auto.
    + intros [A|A]; discriminate.
    + intros A; discriminate.
    + left; auto.
    + erewrite owner_mem_at; [|exact Hlk|apply set_same]. reflexivity.
    + intros; repeat split; reflexivity.
  - (* SUnlock *)
    specialize (Hm eq_refl). destruct Hpc as (f & ->). injection H as <-.
    apply Quiet; [reflexivity|]. plain I Hc.
    + apply lm_drop; reflexivity.
    + same.
    + exact Hbuf.
    + exact Logic.I.
    + left. auto.
    + intros [A|A]; discriminate.
    + intros A; discriminate.
    + left; auto.
    + unfold owner_mem. cbn. exact Hm.
    + intros; repeat split; reflexivity.
  - (* CRet *)
    injection H as <-. apply (Loud _ (Returned n st) m); [reflexivity|constructor|].
    eapply (inert_frame _ _ _ _ _ t _ _ I); [rewrite Hc; cbn; auto | | reflexivity..| ];
      [exact Logic.I|]. intros; discriminate.
Qed.

Lemma call_inv : forall c b s ph m t o s', Inv c b s ph m -> proper_op (c_handlers c) o ->
  call s t o = Some s' ->
  exists e, s_trace s' = s_trace s ++ [e] /\ atomic (c_handlers c) (ph, m) e (ph, m) /\
    Inv c b s' ph m.
Proof.
  intros c b s ph m t o s' I Hp H. unfold call in H.
  destruct (s_clients s t) eqn:Hc; [|discriminate]. injection H as <-.
  exists (Called (s_next s) t o). split; [reflexivity|]. split; [constructor|].
  eapply (inert_frame _ _ _ _ _ t _ _ I);
    [rewrite Hc; exact Logic.I | | reflexivity..| ].
  - destruct o; cbn; auto.
  - intros n1 o1 pc1 E. injection E as <- <- <-. split; [|exact Hp]. destruct o; cbn; eauto.
    contradiction.
Qed.
