(** Calls, order of execution and progress. *)
From Coq Require Import List NArith ZArith Lia Bool Arith.
From Verif Require Import Base EventTask_Model EventTask_Spec EventTask_Proofs
  EventTask_Step_Proofs EventTask_Run_Proofs.
Import ListNotations.
Local Open Scope nat_scope.

(** What call [n] has done so far. *)
Definition hist_at (cap n t : nat) (o : op) (pc : cpc) (evs : list event) : Prop :=
  match pc with
  | CBusy => evs = [Called n t o; Refuse n]
  | NClear _ | NUnlock _ | NCheck _ | NGive _ =>
      exists r, o = Submit r /\ r_len r <= cap /\ evs = [Called n t o; Commit n r]
  | SUnlock v => exists f, o = Locked f /\ evs = [Called n t o; Access n f v]
  | CRet st => whole_call cap n (evs ++ [Returned n st])
  | _ => evs = [Called n t o]
  end.

Record Hist (c : config) (s : state) : Prop := mkHist {
  h_new : forall n, s_next s <= n -> call_events n (s_trace s) = [];
  h_cur : forall t n o pc, s_clients s t = In n o pc ->
      n < s_next s /\ hist_at (c_capacity c) n t o pc (call_events n (s_trace s));
  h_uniq : forall t t' n o pc o' pc', s_clients s t = In n o pc -> s_clients s t' = In n o' pc' ->
      t' = t;
  h_part : forall n, part_of_call (c_capacity c) n (call_events n (s_trace s))
}.

Lemma call_events_app : forall n a b, call_events n (a ++ b) = call_events n a ++ call_events n b.
Proof. intros. apply filter_app. Qed.

Definition only (n : nat) (evs : list event) : Prop :=
  call_events n evs = evs /\ forall k, k <> n -> call_events k evs = [].

Lemma only_nil : forall n, only n [].
Proof. split; reflexivity. Qed.

Lemma only_one : forall n e, of_call n e = true -> (forall k, k <> n -> of_call k e = false) ->
  only n [e].
Proof.
  intros n e H H'. split; unfold call_events; cbn [filter]; [rewrite H; reflexivity|].
  intros k Hk. rewrite (H' k Hk). reflexivity.
Qed.

Lemma hist_part : forall c s ph n t o pc evs, hist_at (c_capacity c) n t o pc evs ->
  pc_ok c s ph o pc -> part_of_call (c_capacity c) n evs.
Proof.
  intros c s ph n t o pc evs H Hp. right. destruct pc; cbn [hist_at pc_ok] in H, Hp.
  1: { destruct Hp as (r & ->). subst evs.
       destruct (le_lt_dec (r_len r) (c_capacity c)) as [L|L].
       - eexists [_; _]. apply w_busy; exact L.
       - eexists [_]. apply w_too_big; exact L. }
  1, 2, 3, 5, 6, 7: destruct Hp as (r & -> & Hp); subst evs; eexists [_; _]; apply w_busy; tauto.
  1: { destruct Hp as (r & -> & Hp & _). subst evs. eexists [_]. apply w_busy; exact Hp. }
  1: { destruct Hp as (r & d & -> & Hp & _). subst evs. eexists [_; _]. apply w_busy; exact Hp. }
  1, 2, 3, 4: destruct Hp as (r & -> & Hp); subst evs; eexists [_; _]; apply w_busy; tauto.
  1, 2, 3, 4: destruct H as (r & -> & L & ->); eexists [_]; apply w_success; exact L.
  1, 2: destruct Hp as (f & ->); subst evs; eexists [_; _]; apply (w_locked _ n t f 0%Z).
  - destruct H as (f & -> & ->). eexists [_]. apply w_locked.
  - eexists [_]. exact H.
Qed.

Lemma hist_client : forall c s t n o pc s' pc' ph evs, Hist c s ->
  s_clients s t = In n o pc -> s_clients s' = set_client (s_clients s) t (In n o pc') ->
  s_next s' = s_next s -> s_trace s' = s_trace s ++ evs -> only n evs ->
  hist_at (c_capacity c) n t o pc' (call_events n (s_trace s) ++ evs) ->
  pc_ok c s' ph o pc' -> Hist c s'.
Proof.
  intros c s t n o pc s' pc' ph evs [HN HC HU HP] Hc Ecl En Et [O1 O2] Hh Hp.
  assert (Ct : s_clients s' t = In n o pc') by (rewrite Ecl; apply set_same).
  assert (Cu : forall u, u <> t -> s_clients s' u = s_clients s u)
    by (intros; rewrite Ecl; apply set_other; auto).
  assert (En1 : call_events n (s_trace s') = call_events n (s_trace s) ++ evs)
    by (rewrite Et, call_events_app, O1; reflexivity).
  assert (En2 : forall k, k <> n -> call_events k (s_trace s') = call_events k (s_trace s))
    by (intros k Hk; rewrite Et, call_events_app, (O2 k Hk), app_nil_r; reflexivity).
  destruct (HC _ _ _ _ Hc) as [Hlt _].
  constructor.
  - intros k Hk. rewrite En in Hk. rewrite En2 by lia. auto.
  - intros u k o1 pc1 H. rewrite En. destruct (Nat.eq_dec u t) as [->|Hu].
    + rewrite Ct in H. injection H as <- <- <-. split; [exact Hlt|]. rewrite En1. exact Hh.
    + rewrite Cu in H by assumption. destruct (HC _ _ _ _ H) as [A B]. split; [exact A|].
      rewrite En2; [exact B|]. intros ->. apply Hu. eapply HU; eauto.
  - intros u v k o1 pc1 o2 pc2 H1 H2.
    destruct (Nat.eq_dec u t) as [->|Hu]; destruct (Nat.eq_dec v t) as [->|Hv]; auto.
    + rewrite Ct in H1. injection H1 as <- <- <-. rewrite Cu in H2 by assumption.
      eapply HU with (t := t); eauto.
    + rewrite Ct in H2. injection H2 as <- <- <-. rewrite Cu in H1 by assumption.
      eapply HU with (t := u); eauto.
    + rewrite Cu in H1 by assumption. rewrite Cu in H2 by assumption. eapply HU with (t := u); eauto.
  - intros k. destruct (Nat.eq_dec k n) as [->|Hk].
    + rewrite En1. eapply hist_part; eauto.
    + rewrite En2 by assumption. apply HP.
Qed.

Lemma hist_same : forall c s s' evs, Hist c s -> s_clients s' = s_clients s ->
  s_next s' = s_next s -> s_trace s' = s_trace s ++ evs ->
  (forall k, call_events k evs = []) -> Hist c s'.
Proof.
  intros c s s' evs [HN HC HU HP] Ec En Et Ho.
  assert (E : forall k, call_events k (s_trace s') = call_events k (s_trace s))
    by (intros k; rewrite Et, call_events_app, Ho, app_nil_r; reflexivity).
  constructor.
  - intros k. rewrite En, E. apply HN.
  - intros u k o pc. rewrite Ec, En, E. apply HC.
  - rewrite Ec. apply HU.
  - intros k. rewrite E. apply HP.
Qed.

Ltac same_event :=
  apply only_one; cbn [of_call]; [apply Nat.eqb_refl | intros k Hk; apply Nat.eqb_neq; auto].

Lemma client_hist : forall c b s ph m t s', Inv c b s ph m -> Hist c s ->
  client_step c s t = Some s' -> Hist c s'.
Proof.
  intros c b s ph m t s' I Hs H.
  destruct (client_inv _ _ _ _ _ _ _ I H) as (ph' & m' & evs' & _ & _ & I').
  unfold client_step in H.
  destruct (s_clients s t) as [|n o pc] eqn:Hc; [discriminate|].
  destruct (i_pc _ _ _ _ _ I _ _ _ _ Hc) as [Hpc Hprop].
  destruct (h_cur _ _ Hs _ _ _ _ Hc) as [Hlt Hh].
  assert (Mute : forall s1 pc', s' = at_pc s1 t n o pc' ->
    s_clients s1 = s_clients s -> s_next s1 = s_next s -> s_trace s1 = s_trace s ->
    hist_at (c_capacity c) n t o pc' (call_events n (s_trace s)) -> Hist c s').
  { intros s1 pc' -> E1 E2 E3 E4.
    assert (Hq : s_clients (at_pc s1 t n o pc') t = In n o pc') by (cbn; apply set_same).
    eapply (hist_client c s t n o pc _ pc' ph' []); eauto.
    - cbn. rewrite E1. reflexivity.
    - rewrite app_nil_r. exact E3.
    - apply only_nil.
    - rewrite app_nil_r. exact E4.
    - eapply i_pc; eauto. }
  assert (Tell : forall s1 pc' e, s' = at_pc s1 t n o pc' ->
    s_clients s1 = s_clients s -> s_next s1 = s_next s -> s_trace s1 = s_trace s ++ [e] ->
    only n [e] ->
    hist_at (c_capacity c) n t o pc' (call_events n (s_trace s) ++ [e]) -> Hist c s').
  { intros s1 pc' e -> E1 E2 E3 E4 E5.
    assert (Hq : s_clients (at_pc s1 t n o pc') t = In n o pc') by (cbn; apply set_same).
    eapply (hist_client c s t n o pc _ pc' ph' [e]); eauto.
    - cbn. rewrite E1. reflexivity.
    - eapply i_pc; eauto. }
  destruct pc; cbn [hist_at] in Hh.
  - destruct Hpc as [r ->]. destruct (c_capacity c <? r_len r) eqn:E; injection H as H.
    + eapply Mute; [symmetry; exact H|reflexivity..|]. cbn [hist_at]. rewrite Hh.
      apply Nat.ltb_lt in E. apply w_too_big; exact E.
    + eapply Mute; [symmetry; exact H|reflexivity..|]. exact Hh.
  - destruct Hpc as (r & -> & L). destruct (s_task s); injection H as H.
    + eapply Mute; [symmetry; exact H|reflexivity..|]. exact Hh.
    + eapply Tell; [symmetry; exact H|reflexivity..|same_event|]. cbn [hist_at]. rewrite Hh.
      apply w_missing; exact L.
  - destruct (s_lock s); [discriminate|]. injection H as H.
    eapply Mute; [symmetry; exact H|reflexivity..|]. exact Hh.
  - destruct Hpc as (r & -> & L & _). destruct (_ && _)%bool; injection H as H.
    + eapply Mute; [symmetry; exact H|reflexivity..|]. exact Hh.
    + eapply Tell; [symmetry; exact H|reflexivity..|same_event|]. cbn [hist_at]. rewrite Hh.
      reflexivity.
  - destruct Hpc as (r & -> & L & _). injection H as H.
    eapply Mute; [symmetry; exact H|reflexivity..|]. cbn [hist_at]. rewrite Hh.
    apply w_busy; exact L.
  - destruct Hpc as (r & -> & L & _).
    destruct (r_status r) as [[cell v]|]; injection H as H;
      (eapply Mute; [symmetry; exact H|reflexivity..|]; exact Hh).
  - destruct Hpc as (r & -> & L & _). injection H as H.
    eapply Mute; [symmetry; exact H|reflexivity..|]; exact Hh.
  - destruct Hpc as (r & -> & L & _).
    destruct (r_data r); injection H as H;
      (eapply Mute; [symmetry; exact H|reflexivity..|]; exact Hh).
  - destruct Hpc as (r & d & -> & L & _ & _ & Ed & _). rewrite Ed in H.
    destruct (i <? r_len r); injection H as H;
      (eapply Mute; [symmetry; exact H|reflexivity..|]; exact Hh).
  - destruct Hpc as (r & -> & L & -> & _).
    assert (Ht : s_task s = true) by (apply (task_phase _ _ _ _ _ I); discriminate).
    rewrite Ht in H. injection H as H. eapply Mute; [symmetry; exact H|reflexivity..|]; exact Hh.
  - destruct Hpc as (r & -> & L & -> & _).
    assert (Ht : s_task s = true) by (apply (task_phase _ _ _ _ _ I); discriminate).
    assert (Hr : (s_running s < 0)%Z) by (apply (running_phase _ _ _ _ _ I Ht); reflexivity).
    apply Z.ltb_lt in Hr. rewrite Hr in H. injection H as H.
    eapply Mute; [symmetry; exact H|reflexivity..|]; exact Hh.
  - destruct Hpc as (r & -> & L & -> & _).
    assert (Hn : s_notifying s = true) by (eapply (i_notif_t _ _ _ _ _ I); eauto).
    rewrite Hn in H. injection H as H. eapply Mute; [symmetry; exact H|reflexivity..|]; exact Hh.
  - destruct Hpc as (r & -> & L & -> & _). destruct Hprop as [Hin _].
    destruct (find_handler_in _ _ Hin) as [i Hi]. rewrite Hi in H. injection H as H.
    eapply Tell; [symmetry; exact H|reflexivity..|same_event|]. cbn [hist_at]. rewrite Hh. eauto.
  - injection H as H. eapply Mute; [symmetry; exact H|reflexivity..|]; exact Hh.
  - injection H as H. eapply Mute; [symmetry; exact H|reflexivity..|]; exact Hh.
  - destruct Hpc as (r & -> & -> & ->).
    assert (Hr : (0 <=? s_running s)%Z = true).
    { destruct (i_phase _ _ _ _ _ I) as (_ & (i & A & _) & _). rewrite A. apply Z.leb_le. lia. }
    rewrite Hr in H. injection H as H. eapply Mute; [symmetry; exact H|reflexivity..|]; exact Hh.
  - destruct Hpc as (r & -> & -> & _). destruct Hh as (r' & E & L & Hh). injection E as <-.
    injection H as H. eapply Mute; [symmetry; exact H|reflexivity..|].
    cbn [hist_at]. rewrite Hh. apply w_success; exact L.
  - destruct (s_lock s); [discriminate|]. injection H as H.
    eapply Mute; [symmetry; exact H|reflexivity..|]. exact Hh.
  - destruct Hpc as (f & ->). destruct (f (s_mem s)) as [m1 v]. injection H as H.
    eapply Tell; [symmetry; exact H|reflexivity..|same_event|]. cbn [hist_at]. rewrite Hh. eauto.
  - destruct Hpc as (f & ->). destruct Hh as (f' & E & Hh). injection E as <-. injection H as H.
    eapply Mute; [symmetry; exact H|reflexivity..|]. cbn [hist_at]. rewrite Hh. apply w_locked.
  - injection H as H.
    assert (Ct : s_clients s' t = Idle) by (rewrite <- H; cbn; apply set_same).
    assert (Cu : forall u, u <> t -> s_clients s' u = s_clients s u)
      by (intros; rewrite <- H; cbn; apply set_other; auto).
    assert (En : s_next s' = s_next s) by (rewrite <- H; reflexivity).
    assert (Et : s_trace s' = s_trace s ++ [Returned n st]) by (rewrite <- H; reflexivity).
    assert (O : only n [Returned n st]) by same_event. destruct O as [O1 O2].
    assert (En2 : forall k, k <> n -> call_events k (s_trace s') = call_events k (s_trace s))
      by (intros k Hk; rewrite Et, call_events_app, (O2 k Hk), app_nil_r; reflexivity).
    destruct Hs as [HN HC HU HP]. constructor.
    + intros k Hk. rewrite En in Hk. rewrite En2 by lia. auto.
    + intros u k o1 pc1 H1. rewrite En. destruct (Nat.eq_dec u t) as [->|Hu]; [congruence|].
      rewrite Cu in H1 by assumption. destruct (HC _ _ _ _ H1) as [A B]. split; [exact A|].
      rewrite En2; [exact B|]. intros ->. apply Hu. eapply HU; eauto.
    + intros u v k o1 pc1 o2 pc2 H1 H2.
      destruct (Nat.eq_dec u t) as [->|Hu]; [congruence|].
      destruct (Nat.eq_dec v t) as [->|Hv]; [congruence|].
      rewrite Cu in H1 by assumption. rewrite Cu in H2 by assumption. eapply HU with (t := u); eauto.
    + intros k. destruct (Nat.eq_dec k n) as [->|Hk].
      * right. exists []. rewrite Et, call_events_app, O1, app_nil_r. exact Hh.
      * rewrite En2 by assumption. apply HP.
Qed.

Lemma call_hist : forall c b s ph m t o s', Inv c b s ph m -> proper_op (c_handlers c) o ->
  Hist c s -> call s t o = Some s' -> Hist c s'.
Proof.
  intros c b s ph m t o s' I Hp Hs H.
  destruct (call_inv _ _ _ _ _ _ _ _ I Hp H) as (e & _ & _ & I').
  unfold call in H. destruct (s_clients s t) eqn:Hc; [|discriminate]. injection H as H.
  set (n := s_next s) in *.
  set (pc := match o with Submit _ => CLength | Cancel => CTask | Locked _ => SLock end) in *.
  assert (Ct : s_clients s' t = In n o pc) by (rewrite <- H; cbn; apply set_same).
  assert (Cu : forall u, u <> t -> s_clients s' u = s_clients s u)
    by (intros; rewrite <- H; cbn; apply set_other; auto).
  assert (En : s_next s' = S n) by (rewrite <- H; reflexivity).
  assert (Et : s_trace s' = s_trace s ++ [Called n t o]) by (rewrite <- H; reflexivity).
  assert (O : only n [Called n t o]) by same_event. destruct O as [O1 O2].
  assert (En2 : forall k, k <> n -> call_events k (s_trace s') = call_events k (s_trace s))
    by (intros k Hk; rewrite Et, call_events_app, (O2 k Hk), app_nil_r; reflexivity).
  destruct Hs as [HN HC HU HP].
  assert (En1 : call_events n (s_trace s') = [Called n t o])
    by (rewrite Et, call_events_app, O1, (HN n (le_n _)); reflexivity).
  assert (Hh : hist_at (c_capacity c) n t o pc (call_events n (s_trace s')))
    by (rewrite En1; subst pc; destruct o; reflexivity).
  constructor.
  - intros k Hk. rewrite En in Hk. rewrite En2 by lia. apply HN. subst n. lia.
  - intros u k o1 pc1 H1. rewrite En. destruct (Nat.eq_dec u t) as [->|Hu].
    + rewrite Ct in H1. injection H1 as <- <- <-. split; [lia|exact Hh].
    + rewrite Cu in H1 by assumption. destruct (HC _ _ _ _ H1) as [A B]. fold n in A.
      split; [lia|]. rewrite En2 by lia. exact B.
  - intros u v k o1 pc1 o2 pc2 H1 H2.
    destruct (Nat.eq_dec u t) as [->|Hu]; destruct (Nat.eq_dec v t) as [->|Hv]; auto.
    + rewrite Ct in H1. injection H1 as <- <- <-. rewrite Cu in H2 by assumption.
      destruct (HC _ _ _ _ H2). fold n in H0. lia.
    + rewrite Ct in H2. injection H2 as <- <- <-. rewrite Cu in H1 by assumption.
      destruct (HC _ _ _ _ H1). fold n in H0. lia.
    + rewrite Cu in H1 by assumption. rewrite Cu in H2 by assumption. eapply HU with (t := u); eauto.
  - intros k. destruct (Nat.eq_dec k n) as [->|Hk].
    + eapply hist_part; [exact Hh|]. eapply (i_pc _ _ _ _ _ I'); eauto.
    + rewrite En2 by assumption. apply HP.
Qed.

Lemma task_hist : forall c s mv s', Hist c s -> task_step c s mv = Some s' -> Hist c s'.
Proof.
  intros c s mv s' Hs H. unfold task_step in H. destruct (s_task s); [|discriminate].
  assert (G : forall s1 w evs, s' = at_worker s1 w -> s_clients s1 = s_clients s ->
    s_next s1 = s_next s -> s_trace s1 = s_trace s ++ evs ->
    (forall k, call_events k evs = []) -> Hist c s').
  { intros s1 w evs -> A B C D. eapply hist_same; eauto. }
  assert (G0 : forall s1 w, s' = at_worker s1 w -> s_clients s1 = s_clients s ->
    s_next s1 = s_next s -> s_trace s1 = s_trace s -> Hist c s').
  { intros s1 w E A B C. eapply G with (evs := []); eauto. rewrite app_nil_r. exact C. }
  destruct (s_worker s); try discriminate;
    repeat match type of H with
    | (if ?b then _ else _) = _ => destruct b
    | match ?x with _ => _ end = _ => destruct x
    end; try discriminate; injection H as H; symmetry in H;
    first [ eapply G0; [exact H|reflexivity..]
          | eapply G; [exact H|reflexivity..|reflexivity] ].
Qed.

Lemma step_hist : forall c b s ph m ch s', Inv c b s ph m -> proper_choice (c_handlers c) ch ->
  Hist c s -> step c s ch = Some s' -> Hist c s'.
Proof.
  intros c b s ph m ch s' I Hp Hs H. destruct ch as [| |t o|t|mv]; cbn [step] in H.
  - destruct (s_task s); [discriminate|]. injection H as <-.
    eapply hist_same with (evs := [Created]); eauto.
  - destruct (s_task s); [|discriminate]. injection H as <-.
    eapply hist_same with (evs := []); eauto. cbn. rewrite app_nil_r. reflexivity.
  - eapply call_hist; eauto.
  - eapply client_hist; eauto.
  - eapply task_hist; eauto.
Qed.

Lemma init_hist : forall c m, Hist c (init c m).
Proof.
  intros. constructor; cbn; intros; try discriminate; auto. left. reflexivity.
Qed.

Lemma run_hist : forall c sch b s ph m s', Inv c b s ph m -> Hist c s ->
  Forall (proper_choice (c_handlers c)) sch -> starts sch <= b ->
  run c s sch = Some s' -> Hist c s'.
Proof.
  intros c sch. induction sch as [|ch sch IH]; cbn [run]; intros b s ph m s' I Hh Hf Hs H.
  - injection H as <-. exact Hh.
  - destruct (step c s ch) as [s1|] eqn:E; [|discriminate].
    inversion Hf as [|? ? Hp Hf']; subst.
    assert (Hs1 : (ch = Start -> 0 < b) /\ starts sch <= match ch with Start => 0 | _ => b end).
    { unfold starts in *. destruct ch; cbn [filter length] in Hs |- *;
        (split; [intros A; try discriminate; lia|]); try lia.
      assert (b = 1 \/ b = 0 \/ 1 < b) as [Hb1|[Hb1|Hb1]] by lia; [lia|lia|].
      destruct (i_starts _ _ _ _ _ I ltac:(lia)) as (D & _). lia. }
    destruct Hs1 as [Hs1 Hs2].
    destruct (step_inv _ _ _ _ _ _ _ I Hp Hs1 E) as (ph' & m' & evs & A & B & C).
    eapply IH; [exact C| |exact Hf'|exact Hs2|exact H]. exact (step_hist c b s ph m ch s1 I Hp Hh E).
Qed.

Lemma reach_hist : forall c m sch s, proper (c_handlers c) sch -> run c (init c m) sch = Some s ->
  Hist c s.
Proof.
  intros c m sch s [Hf Hs] H. eapply run_hist; eauto; [apply init_inv|apply init_hist].
Qed.

(** ** What a behaviour of the atomic machine looks like *)
Lemma commits_app : forall a b, commits (a ++ b) = commits a ++ commits b.
Proof. intros. apply flat_map_app. Qed.
Lemma begins_app : forall a b, begins (a ++ b) = begins a ++ begins b.
Proof. intros. apply flat_map_app. Qed.
Lemma ends_app : forall a b, ends (a ++ b) = ends a + ends b.
Proof. intros. unfold ends. rewrite filter_app, app_length. reflexivity. Qed.

Definition counted (tr : list event) (ph : phase) : Prop :=
  match ph with
  | Pending r => exists l, commits tr = l ++ [r] /\ begins tr = map r_handler l /\ ends tr = length l
  | Running r =>
      exists l, commits tr = l ++ [r] /\ begins tr = map r_handler (l ++ [r]) /\ ends tr = length l
  | _ => begins tr = map r_handler (commits tr) /\ ends tr = length (commits tr)
  end.

Lemma behaves_counted : forall hs m tr ph m', behaves hs (Off, m) tr (ph, m') -> counted tr ph.
Proof.
  intros hs m tr ph m' H. remember (Off, m) as x eqn:Ex. remember (ph, m') as y eqn:Ey.
  revert ph m' Ey. induction H as [x|x y z tr e H IH Ha]; intros ph m' E.
  - subst x. injection E as <- <-. split; reflexivity.
  - subst x z. destruct y as [ph0 m0]. specialize (IH eq_refl _ _ eq_refl).
    destruct ph0 as [|k| |r|r]; inversion Ha; subst; cbn [counted] in *;
      rewrite ?commits_app, ?begins_app, ?ends_app; cbn [commits begins ends flat_map filter length app];
      rewrite ?app_nil_r, ?Nat.add_0_r; try exact IH; try congruence.
    + destruct IH as [A B]. eauto.
    + destruct IH as (l & A & B & C). exists l. rewrite A, B, C, map_app. auto.
    + destruct IH as (l & A & B & C). rewrite A, B, C, app_length. auto.
Qed.

Lemma behaves_split : forall hs x tr z, behaves hs x tr z -> forall a e b,
  tr = a ++ e :: b -> exists y y', behaves hs x a y /\ atomic hs y e y'.
Proof.
  intros hs x tr z H. induction H as [x|x y z tr e H IH Ha]; intros a e' b E.
  - destruct a; discriminate.
  - destruct (exists_last (l := e' :: b)) as (b' & e'' & Eb); [discriminate|].
    rewrite Eb in E. rewrite app_assoc in E. apply app_inj_tail in E. destruct E as [E1 E2].
    subst e''. destruct b' as [|x1 b'].
    + cbn in Eb. injection Eb as -> ->. rewrite app_nil_r in E1. subst a. eauto.
    + cbn in Eb. injection Eb as <- Eb. eapply IH. exact E1.
Qed.

(** ** Progress *)
Lemma holder_moves : forall c b s ph m t n o pc, Inv c b s ph m ->
  s_clients s t = In n o pc -> holds pc = true -> exists s', client_step c s t = Some s'.
Proof.
  intros c b s ph m t n o pc I Hc Hh. destruct (i_pc _ _ _ _ _ I _ _ _ _ Hc) as [Hp _].
  unfold client_step. rewrite Hc. destruct pc; try discriminate; cbn [pc_ok] in Hp; eauto.
  - destruct (_ && _)%bool; eauto.
  - destruct Hp as (r & -> & _). destruct (r_status r) as [[? ?]|]; eauto.
  - destruct Hp as (r & -> & _). eauto.
  - destruct Hp as (r & -> & _). destruct (r_data r); eauto.
  - destruct Hp as (r & d & -> & _ & _ & _ & E & _). rewrite E. destruct (_ <? _); eauto.
  - destruct (s_task s); eauto.
  - destruct (_ <? _)%Z; eauto.
  - destruct (s_notifying s); eauto.
  - destruct Hp as (r & -> & _). destruct (find_handler _ _); eauto.
  - destruct Hp as (f & ->). destruct (f (s_mem s)). eauto.
Qed.

Lemma free_client_moves : forall c b s ph m t n o pc, Inv c b s ph m -> s_lock s = None ->
  s_clients s t = In n o pc -> exists s', client_step c s t = Some s'.
Proof.
  intros c b s ph m t n o pc I Hl Hc. destruct (holds pc) eqn:Eh; [eapply holder_moves; eauto|].
  destruct (i_pc _ _ _ _ _ I _ _ _ _ Hc) as [Hp _].
  unfold client_step. rewrite Hc, ?Hl. destruct pc; try discriminate; cbn [pc_ok] in Hp; eauto.
  - destruct Hp as (r & ->). destruct (_ <? _); eauto.
  - destruct (s_task s); eauto.
  - destruct (_ <=? _)%Z; eauto.
Qed.

Definition stuck (c : config) (s : state) : Prop :=
  (forall t, client_step c s t = None) /\ (forall mv, task_step c s mv = None).

Lemma stuck_quiet : forall c b s ph m, Inv c b s ph m -> stuck c s ->
  (forall t, s_clients s t = Idle) /\ s_lock s = None /\
  (ph = Off \/ (ph = Down 0 /\ s_count s = 0 /\ s_worker s = WStart) \/
   (ph = Ready /\ s_worker s = WTake /\ s_count s = 0)).
Proof.
  intros c b s ph m I [Hc Ht].
  assert (Hl : s_lock s = None).
  { pose proof (i_lock _ _ _ _ _ I) as L. destruct (s_lock s) as [[t|]|] eqn:E; [| |reflexivity].
    - destruct L as (n & o & pc & A & B).
      destruct (holder_moves _ _ _ _ _ _ _ _ _ I A B) as [s' Hs]. rewrite Hc in Hs. discriminate.
    - exfalso. pose proof (i_phase _ _ _ _ _ I) as P.
      assert (Hk : s_task s = true).
      { destruct ph; cbn [phase_ok] in P; destruct P as (P & Q); auto.
        destruct Q as (Q & _). rewrite Q in L. discriminate. }
      specialize (Ht Look). unfold task_step in Ht. rewrite Hk in Ht.
      destruct (s_worker s); try discriminate. }
  assert (Hi : forall t, s_clients s t = Idle).
  { intros t. destruct (s_clients s t) as [|n o pc] eqn:E; [reflexivity|].
    destruct (free_client_moves _ _ _ _ _ _ _ _ _ I Hl E) as [s' Hs]. rewrite Hc in Hs. discriminate. }
  split; [exact Hi|]. split; [exact Hl|].
  pose proof (i_phase _ _ _ _ _ I) as P. specialize (Ht Look). unfold task_step in Ht.
  rewrite Hl in Ht.
  destruct ph as [|k| |r|r]; cbn [phase_ok] in P; [left; reflexivity| | | |];
    destruct P as (P & Q); rewrite P in Ht.
  - right. left. destruct Q as (Q0 & [(Q1 & -> & Q3)|[(Q1 & Q2)|([Q1|Q1] & Q2)]]); rewrite Q1 in Ht.
    + destruct (0 <? s_count s) eqn:E; [discriminate|]. apply Nat.ltb_ge in E.
      split; [reflexivity|]. split; [lia|exact Q1].
    + destruct (nth_error _ _); discriminate.
    + discriminate.
    + discriminate.
  - right. right. destruct Q as (_ & Q1 & [Q2|[Q2|Q2]]); rewrite Q2 in Ht; try discriminate. auto.
  - exfalso. destruct Q as (_ & _ & [(Q1 & Q2 & t & n & o & pc & Q3 & _)|[(Q1 & Q2 & _)|(Q1 & _)]]).
    + rewrite Hi in Q3. discriminate.
    + destruct Q1 as [Q1|[Q1|Q1]]; rewrite Q1, ?Q2 in Ht; discriminate.
    + destruct Q1 as [Q1|[Q1|Q1]]; rewrite Q1 in Ht.
      * destruct (_ <=? _)%Z; discriminate.
      * destruct (_ <? _)%Z; discriminate.
      * destruct (nth_error _ _); [destruct (_ <? _)%Z|]; discriminate.
  - exfalso. destruct Q as (_ & _ & _ & Q). destruct (s_worker s); try contradiction; try discriminate.
    destruct reset; discriminate.
Qed.
