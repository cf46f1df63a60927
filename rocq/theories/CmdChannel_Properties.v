(** C37: messages on a shared command channel. *)
From Coq Require Import List NArith Bool Arith Lia.
From Verif Require Import Base CmdChannel_Model CmdChannel_Spec CmdChannel_Proofs.
Import ListNotations.

(** Under every schedule of any number of tasks, and whatever the bus does: what a task has put on the
    wire are the first packets of its message, in order, to its destination and of the size asked for;
    all of them if it reports success, none if the answer is late, not all after any other error. *)
Theorem C37_packets : forall limit msgs sched s bad i, (forall i, (0 < psize (msgs i))%nat) ->
  reachable limit msgs sched s bad ->
  match phases s i with
  | Ready | Finished Expired => mine i (wire s) = []
  | Finished Ok => cut (msgs i) (mine i (wire s)) []
  | Holding rest | Sleeping rest => rest <> [] /\ cut (msgs i) (mine i (wire s)) rest
  | Finished TxTimeout | Finished SendFail => exists rest, rest <> [] /\ cut (msgs i) (mine i (wire s)) rest
  end.
Proof.
  intros limit msgs sched s bad i P R. pose proof (i_thread _ _ (inv_run _ _ P _ _ _ _ _ (inv_init msgs) R) i) as T.
  unfold thread_ok in T. destruct (phases s i) as [|r|r|[]]; exact T.
Qed.
Print Assumptions C37_packets.

(** No packet is longer than the packet buffer if the messages ask for no longer ones. *)
Theorem C37_fits : forall limit msgs sched s bad, (forall i, psize (msgs i) <= limit)%nat ->
  reachable limit msgs sched s bad -> bad = false.
Proof. intros limit msgs sched s bad P R. exact (run_bad _ _ P _ _ _ _ _ R). Qed.
Print Assumptions C37_fits.

(** The packets of a task that never meets a busy bus follow each other on the wire, whatever the other
    tasks do. *)
Theorem C37_contiguous : forall limit msgs sched s bad i, (forall i, (0 < psize (msgs i))%nat) ->
  reachable limit msgs sched s bad -> never_busy i sched -> contiguous i (wire s).
Proof.
  intros limit msgs sched s bad i P R NB.
  assert (cont i s) as C by (eapply cont_run; [exact P|apply inv_init| |exact NB|exact R]; reflexivity).
  unfold cont in C. destruct (phases s i); [now apply none_contiguous|now apply tail_contiguous|contradiction|exact C].
Qed.
Print Assumptions C37_contiguous.

(** Of every sequence of received packets exactly those are processed that are no overflow and do not
    follow one. *)
Theorem C37_receive : forall l k p, nth_error l k = Some p ->
  (nth_error (receive_all false l) k = Some Processed <-> p <> Overflow /\ ~ after_overflow l k).
Proof.
  intros l k p H. rewrite receive_nth, H. unfold after_overflow. destruct k as [|j].
  - destruct p; split; try (intros _; split; [discriminate|intros (j & E & _); discriminate]); try discriminate; auto; now intros [X _].
  - assert ((exists j', S j = S j' /\ nth_error l j' = Some Overflow) <-> nth_error l j = Some Overflow) as A.
    { split; [intros (j' & Ej & Q); injection Ej as <-; exact Q|eauto]. }
    rewrite A. destruct p, (nth_error l j) as [[]|]; split; intros X; try discriminate; try (split; discriminate); try reflexivity;
      destruct X as [X Y]; try (now destruct X); now destruct Y.
Qed.
Print Assumptions C37_receive.

(** ** Two tasks *)
Definition demo : nat -> message := fun i =>
  match i with
  | O => {| dest := 16; psize := 2; data := [1; 2; 3; 4; 5] |}
  | _ => {| dest := 32; psize := 3; data := [6; 7; 8] |}
  end%N.
Definition demo_sched : list action := [Lock 0 false; Send 0 Sent; Send 0 (Busy false); Lock 1 false; Send 1 Sent; Lock 0 false; Send 0 Sent; Send 0 Sent].

Example C37_example :
  match run 247 demo demo_sched init false with
  | Some (s, bad) => reachable 247 demo demo_sched s bad /\ phases s O = Finished Ok /\ phases s 1%nat = Finished Ok /\
      map fst (wire s) = [0; 1; 0; 0]%nat /\ map p_data (mine 0 (wire s)) = [[1; 2]; [3; 4]; [5]]%N /\ bad = false
  | None => False
  end.
Proof. repeat split. Qed.

Example C37_receive_example : receive_all false [Valid; Overflow; Valid; Valid; RxError] = [Processed; Rejected; Ignored; Processed; Processed].
Proof. reflexivity. Qed.

(** While the bus is busy the lock is given up (cmd_channel.c:198-203), so another message can be sent
    between two packets of one. *)
Theorem C37_interleaved_refuted : ~ (forall limit msgs sched s bad i, (forall i, (0 < psize (msgs i))%nat) ->
  reachable limit msgs sched s bad -> contiguous i (wire s)).
Proof.
  intros H. destruct (run 247 demo demo_sched init false) as [[s bad]|] eqn:R; [|discriminate].
  specialize (H 247%nat demo demo_sched s bad 0%nat ltac:(intros [|i]; cbn; lia) R).
  vm_compute in R. injection R as <- _. destruct H as (l1 & l2 & ps & E & M1 & M2). cbn [wire] in E.
  assert (length l1 = O) as L1.
  { destruct l1 as [|x l1]; [reflexivity|]. injection E as <- E. discriminate. }
  destruct l1; [|discriminate]. cbn [app] in E. destruct ps as [|p1 ps]; [cbn in E; subst l2; discriminate|].
  cbn in E. injection E as _ E. destruct ps as [|p2 ps]; [cbn in E; subst l2; discriminate|]. discriminate.
Qed.
Print Assumptions C37_interleaved_refuted.

(** The packet size of a message is not checked against the packet buffer (cmd_channel.c:180-181). *)
Theorem C37_packet_size_refuted : ~ (forall limit msgs sched s bad, reachable limit msgs sched s bad -> bad = false).
Proof.
  intros H.
  specialize (H 1%nat demo [Lock 0 false; Send 0 Error] _ true eq_refl). discriminate.
Qed.
Print Assumptions C37_packet_size_refuted.

(** A packet without any error is thrown away if an overflow came before it, also when it belongs to another
    transaction (cmd_channel.c:260-267). *)
Theorem C37_valid_processed_refuted : ~ (forall l k, nth_error l k = Some Valid -> nth_error (receive_all false l) k = Some Processed).
Proof. intros H. specialize (H [Overflow; Valid] 1%nat eq_refl). discriminate. Qed.
Print Assumptions C37_valid_processed_refuted.
