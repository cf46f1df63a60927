(** C71: the event task is an atomic machine under every schedule. *)
From Coq Require Import List NArith ZArith Lia Bool Arith.
From Verif Require Import Base EventTask_Model EventTask_Spec EventTask_Proofs
  EventTask_Step_Proofs EventTask_Run_Proofs EventTask_Calls_Proofs.
Import ListNotations.
Local Open Scope nat_scope.

(** Whatever the number of threads and however they are interleaved, what
    happens is a behaviour of the atomic machine of the specification. *)
Theorem C71_atomic : forall c m sch s,
  proper (c_handlers c) sch -> run c (init c m) sch = Some s ->
  exists x, behaves (c_handlers c) (Off, m) (s_trace s) x.
Proof.
  intros c m sch s Hp H. destruct (reach_inv _ _ _ _ Hp H) as (b & ph & m' & A & _). eauto.
Qed.
Print Assumptions C71_atomic.

(** Each call is a call of the atomic machine: it takes effect at most once,
    between its start and its return, and returns success exactly if its event
    was put in place. *)
Theorem C71_calls : forall c m sch s n,
  proper (c_handlers c) sch -> run c (init c m) sch = Some s ->
  part_of_call (c_capacity c) n (call_events n (s_trace s)).
Proof. intros c m sch s n Hp H. apply (h_part _ _ (reach_hist _ _ _ _ Hp H)). Qed.
Print Assumptions C71_calls.

(** A call that has returned is whole. *)
Theorem C71_returned : forall c m sch s n st,
  proper (c_handlers c) sch -> run c (init c m) sch = Some s ->
  List.In (Returned n st) (s_trace s) ->
  whole_call (c_capacity c) n (call_events n (s_trace s)).
Proof.
  intros c m sch s n st Hp H Hin.
  assert (Hin' : List.In (Returned n st) (call_events n (s_trace s))).
  { apply filter_In. split; [exact Hin|]. cbn. apply Nat.eqb_refl. }
  destruct (C71_calls _ _ _ _ n Hp H) as [E|[rest W]]; [rewrite E in Hin'; contradiction|].
  destruct rest as [|e rest]; [rewrite app_nil_r in W; exact W|]. exfalso.
  revert Hin' W. generalize (call_events n (s_trace s)) as evs. intros evs Hin' W.
  destruct (in_split _ _ Hin') as (a & d & ->). rewrite <- app_assoc in W. cbn [app] in W.
  remember (a ++ Returned n st :: d ++ e :: rest) as l eqn:El. destruct W;
    repeat (destruct a as [|? a]; cbn [app] in El;
            [injection El; intros; subst; try discriminate; destruct d; discriminate|
             injection El; clear El; intros El; intros; subst]; try discriminate);
    destruct a; discriminate.
Qed.
Print Assumptions C71_returned.

(** Events are executed in the order in which they were accepted, each once,
    by the handler it was submitted for; at most one is waiting. *)
Theorem C71_exactly_once : forall c m sch s,
  proper (c_handlers c) sch -> run c (init c m) sch = Some s ->
  exists waiting, map r_handler (commits (s_trace s)) = begins (s_trace s) ++ waiting /\
    length waiting <= 1 /\ ends (s_trace s) <= length (begins (s_trace s)) <= S (ends (s_trace s)).
Proof.
  intros c m sch s Hp H. destruct (C71_atomic _ _ _ _ Hp H) as [[ph m'] B].
  pose proof (behaves_counted _ _ _ _ _ B) as C. destruct ph as [|k| |r|r]; cbn [counted] in C.
  1, 2, 3: destruct C as [C1 C2]; exists []; rewrite C1, C2, app_nil_r, map_length;
    split; [reflexivity|]; cbn; lia.
  - destruct C as (l & C1 & C2 & C3). exists [r_handler r]. rewrite C1, C2, C3, map_app, map_length.
    split; [reflexivity|]. cbn. lia.
  - destruct C as (l & C1 & C2 & C3). exists []. rewrite C1, C2, C3, app_nil_r, map_length, app_length.
    split; [reflexivity|]. cbn. lia.
Qed.
Print Assumptions C71_exactly_once.

(** Whenever a handler looks at its event, however late, it finds the action
    and the data of the last accepted submission, which was made for it and
    whose execution has begun and not ended. *)
Theorem C71_handler_sees : forall c m sch s before h action data after,
  proper (c_handlers c) sch -> run c (init c m) sch = Some s ->
  s_trace s = before ++ Saw h action data :: after ->
  exists earlier r, commits before = earlier ++ [r] /\
    h = r_handler r /\ action = r_action r /\ data = payload r /\
    begins before = map r_handler (earlier ++ [r]) /\ ends before = length earlier.
Proof.
  intros c m sch s before h action data after Hp H E.
  destruct (C71_atomic _ _ _ _ Hp H) as [x B].
  destruct (behaves_split _ _ _ _ B _ _ _ E) as ([ph m1] & y' & B1 & A).
  pose proof (behaves_counted _ _ _ _ _ B1) as C. inversion A; subst. cbn [counted] in C.
  destruct C as (l & C1 & C2 & C3). exists l, r. auto 8.
Qed.
Print Assumptions C71_handler_sees.

(** A locked section, e.g. a status query, sees the cells exactly as the
    accepted submissions, the handlers' writes and the earlier sections left
    them: never a starting status of a submission that is not in place. *)
Theorem C71_section_sees : forall c m sch s before n f v after,
  proper (c_handlers c) sch -> run c (init c m) sch = Some s ->
  s_trace s = before ++ Access n f v :: after ->
  exists ph m', behaves (c_handlers c) (Off, m) before (ph, m') /\ v = snd (f m').
Proof.
  intros c m sch s before n f v after Hp H E.
  destruct (C71_atomic _ _ _ _ Hp H) as [x B].
  destruct (behaves_split _ _ _ _ B _ _ _ E) as ([ph m1] & y' & B1 & A).
  exists ph, m1. split; [exact B1|]. inversion A; subst.
  match goal with He : f m1 = _ |- _ => rewrite He; reflexivity end.
Qed.
Print Assumptions C71_section_sees.

(** No event is lost and nothing deadlocks: if no thread inside a call and not
    the task can move, then every call has returned, the lock is free, every
    accepted event has been executed to its end, and, unless the task was
    never created or started, it is ready for the next event. *)
Theorem C71_no_lost_event : forall c m sch s,
  proper (c_handlers c) sch -> run c (init c m) sch = Some s ->
  (forall t, step c s (Client t) = None) -> (forall mv, step c s (Task mv) = None) ->
  (forall t, s_clients s t = Idle) /\ s_lock s = None /\
  begins (s_trace s) = map r_handler (commits (s_trace s)) /\
  ends (s_trace s) = length (commits (s_trace s)) /\
  (s_task s = true -> List.In Start sch -> s_worker s = WTake /\ (s_running s < 0)%Z).
Proof.
  intros c m sch s Hp H H1 H2. destruct (reach_inv _ _ _ _ Hp H) as (b & ph & m' & B & I).
  destruct (stuck_quiet _ _ _ _ _ I (conj H1 H2)) as (A1 & A2 & A3).
  split; [exact A1|]. split; [exact A2|].
  pose proof (behaves_counted _ _ _ _ _ B) as C.
  assert (CC : begins (s_trace s) = map r_handler (commits (s_trace s)) /\
               ends (s_trace s) = length (commits (s_trace s))).
  { destruct A3 as [->|[(-> & _)|(-> & _)]]; exact C. }
  split; [apply CC|]. split; [apply CC|].
  intros Ht Hin. destruct A3 as [->|[(-> & A & A')|(-> & A & _)]].
  - exfalso. pose proof (i_phase _ _ _ _ _ I) as P. cbn in P. destruct P. congruence.
  - exfalso.
    (* once started, the count stays up until the task takes it *)
    assert (K : forall sch1 s0 s1, run c s0 sch1 = Some s1 -> s_worker s1 = WStart ->
              s_count s0 <= s_count s1 /\ (List.In Start sch1 -> s_count s0 < s_count s1)).
    { clear. induction sch1 as [|ch sch1 IH]; cbn [run]; intros s0 s1 H Hw.
      - injection H as <-. split; [lia|]. intros [].
      - destruct (step c s0 ch) as [s2|] eqn:E; [|discriminate].
        destruct (IH _ _ H Hw) as [K1 K2].
        assert (L : s_count s0 <= s_count s2 /\ (ch = Start -> s_count s0 < s_count s2)).
        { assert (W2 : s_worker s2 = WStart).
          { clear - H Hw. revert s2 H. induction sch1 as [|ch l IH]; cbn [run]; intros s2 H.
            - injection H as <-. exact Hw.
            - destruct (step c s2 ch) as [s3|] eqn:E; [|discriminate].
              specialize (IH _ H). destruct ch as [| |t o|t|mv]; cbn [step] in E.
              + destruct (s_task s2); [discriminate|]. injection E as <-. exact IH.
              + destruct (s_task s2); [|discriminate]. injection E as <-. exact IH.
              + unfold call in E. destruct (s_clients s2 t); [|discriminate]. injection E as <-. exact IH.
              + unfold client_step in E. destruct (s_clients s2 t) as [|n o pc]; [discriminate|].
                destruct pc; repeat match type of E with
                  | (if ?b then _ else _) = _ => destruct b
                  | match ?x with _ => _ end = _ => destruct x
                  end; try discriminate; injection E as <-; exact IH.
              + exfalso. unfold task_step in E. destruct (s_task s2); [|discriminate].
                destruct (s_worker s2); repeat match type of E with
                  | (if ?b then _ else _) = _ => destruct b
                  | match ?x with _ => _ end = _ => destruct x
                  end; try discriminate; injection E as <-; discriminate. }
          clear H IH K1 K2. destruct ch as [| |t o|t|mv]; cbn [step] in E.
          + destruct (s_task s0); [discriminate|]. injection E as <-. cbn. split; [lia|discriminate].
          + destruct (s_task s0); [|discriminate]. injection E as <-. cbn. lia.
          + unfold call in E. destruct (s_clients s0 t); [|discriminate]. injection E as <-.
            cbn. split; [lia|discriminate].
          + split; [|discriminate]. unfold client_step in E.
            destruct (s_clients s0 t) as [|n o pc]; [discriminate|].
            destruct pc; repeat match type of E with
              | (if ?b then _ else _) = _ => destruct b
              | match ?x with _ => _ end = _ => destruct x
              end; try discriminate; injection E as <-; cbn; lia.
          + exfalso. unfold task_step in E. destruct (s_task s0); [|discriminate].
            destruct (s_worker s0); repeat match type of E with
              | (if ?b then _ else _) = _ => destruct b
              | match ?x with _ => _ end = _ => destruct x
              end; try discriminate; injection E as <-; discriminate. }
        destruct L as [L1 L2]. split; [lia|]. intros [->|Hin]; [specialize (L2 eq_refl)|specialize (K2 Hin)]; lia. }
    destruct (K _ _ _ H A') as [_ K2]. specialize (K2 Hin). lia.
  - split; [exact A|]. apply (running_phase _ _ _ _ _ I Ht). reflexivity.
Qed.
Print Assumptions C71_no_lost_event.

(** A concrete run: two threads race to submit, one is accepted, the other is
    told that the task is busy; the handler sees the accepted data and a third
    thread reads the status it wrote. *)
Definition demo_config : config := mkConfig [5; 7] 4.
Definition demo_a : request := mkReq 7 1 (Some [10; 11]%N) 2 (Some (0, 100%Z)).
Definition demo_b : request := mkReq 5 2 None 0 (Some (0, 200%Z)).
Definition demo_read : mem -> mem * Z := fun m => (m, m 0).
Definition demo_schedule : list choice :=
  [Create; Start] ++ repeat (Task Look) 7 ++
  [Call 0 (Submit demo_a); Call 1 (Submit demo_b)] ++ repeat (Client 0) 12 ++
  repeat (Client 1) 2 ++ repeat (Client 0) 7 ++ repeat (Client 1) 4 ++
  repeat (Task Look) 5 ++ repeat (Task (SetCell 0 42)) 4 ++ [Call 2 (Locked demo_read)] ++
  repeat (Client 2) 4 ++ repeat (Task (Done false)) 5.

Definition visible (s : option state) : list (nat * result) * list (nat * (N * list N)) * nat :=
  match s with
  | None => ([], [], 0)
  | Some s =>
      (flat_map (fun e => match e with Returned n st => [(n, st)] | _ => [] end) (s_trace s),
       flat_map (fun e => match e with Saw h a d => [(h, (a, d))] | _ => [] end) (s_trace s),
       ends (s_trace s))
  end.

Example C71_demo : visible (run demo_config (init demo_config (fun _ => 0%Z)) demo_schedule) =
  ([(0, Success); (1, TaskBusy); (2, Value 42)], [(7, (1%N, [10; 11]%N))], 1) /\
  proper (c_handlers demo_config) demo_schedule.
Proof.
  split; [vm_compute; reflexivity|]. split; [|vm_compute; lia].
  unfold demo_schedule. repeat (apply Forall_app; split);
    repeat first [apply Forall_nil | apply Forall_cons]; cbn; auto; lia.
Qed.

(** The interface also lets a caller give up a context it has obtained, by
    notifying a null handler (event_task.h:87-91).  The notification count is
    then raised if [running] happens to be set by the time it is looked at,
    outside the lock (event_task_freertos.c:83-86), i.e. for somebody else's
    event.  The extra wake-up makes the task clear [running] for an event that
    is accepted meanwhile: the submission returns success, the task goes back
    to waiting and the event is never executed. *)
Definition lost_a : request := mkReq 7 1 None 0 None.
Definition lost_b : request := mkReq 7 2 None 0 None.
Definition lost_schedule : list choice :=
  [Create; Start] ++ repeat (Task Look) 6 ++
  [Call 0 Cancel] ++ repeat (Client 0) 9 ++
  [Call 1 (Submit lost_a)] ++ repeat (Client 1) 16 ++
  repeat (Task Look) 4 ++ repeat (Client 0) 3 ++ repeat (Task (Done false)) 7 ++
  [Call 1 (Submit lost_b)] ++ repeat (Client 1) 16 ++ repeat (Task Look) 10.

Definition lost_config : config := mkConfig [7] 4.

(** With cancellation an accepted event can be lost for good. *)
Theorem C71_cancel_refuted : exists c m sch s n,
  starts sch = 1 /\ Forall (fun ch => match ch with Call _ (Submit r) => proper_op (c_handlers c) (Submit r)
                                               | _ => True end) sch /\
  run c (init c m) sch = Some s /\
  List.In (Returned n Success) (s_trace s) /\
  quiet s /\ (s_running s < 0)%Z /\
  length (commits (s_trace s)) = 2 /\ length (begins (s_trace s)) = 1.
Proof.
  exists lost_config, (fun _ => 0%Z), lost_schedule. eexists. exists 2.
  split; [reflexivity|]. split.
  { unfold lost_schedule. repeat (apply Forall_app; split);
    repeat first [apply Forall_nil | apply Forall_cons]; cbn; auto. }
  split; [vm_compute; reflexivity|]. split; [cbn; tauto|]. split.
  { split; [|split; reflexivity]. intros [|[|t]]; reflexivity. }
  split; [reflexivity|]. split; reflexivity.
Qed.
Print Assumptions C71_cancel_refuted.
