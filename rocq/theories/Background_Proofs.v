(** Proofs about background commands: statuses and the key. *)
From Coq Require Import List NArith Lia Bool Arith ZifyBool ZifyNat ZifyN.
From Verif Require Import Base Unseal_Model Unseal_Spec Background_Model Background_Spec.
Import ListNotations.
Local Open Scope N_scope.

Lemma status_word : forall k e, k < 256 -> STATUS k e = e mod 2 ^ 24 * 256 + k.
Proof.
  intros k e Hk. unfold STATUS. change 0xffffff with (N.ones 24). rewrite N.land_ones, N.shiftl_mul_pow2.
  change (2 ^ 8) with 256. generalize (e mod 2 ^ 24). intros x.
  rewrite <- N.lxor_lor.
  - rewrite <- N.add_nocarry_lxor; [reflexivity|].
    apply N.bits_inj. intros n. rewrite N.land_spec, N.bits_0.
    change 256 with (2 ^ 8). destruct (N.lt_ge_cases n 8) as [L|L].
    + rewrite N.mul_pow2_bits_low by exact L. reflexivity.
    + assert (Z : N.testbit k n = false).
      { destruct (N.eq_dec k 0) as [->|Hn]; [apply N.bits_0|]. apply N.bits_above_log2.
        apply N.lt_le_trans with (m := 8); [|exact L]. apply N.log2_lt_pow2; [lia|exact Hk]. }
      rewrite Z. apply andb_false_r.
  - apply N.bits_inj. intros n. rewrite N.land_spec, N.bits_0.
    change 256 with (2 ^ 8). destruct (N.lt_ge_cases n 8) as [L|L].
    + rewrite N.mul_pow2_bits_low by exact L. reflexivity.
    + assert (Z : N.testbit k n = false).
      { destruct (N.eq_dec k 0) as [->|Hn]; [apply N.bits_0|]. apply N.bits_above_log2.
        apply N.lt_le_trans with (m := 8); [|exact L]. apply N.log2_lt_pow2; [lia|exact Hk]. }
      rewrite Z. apply andb_false_r.
Qed.

Lemma last_snoc : forall {A} (m : input * output -> option A) h e d,
  last_event m (h ++ [e]) d = match m e with Some a => a | None => last_event m h d end.
Proof.
  intros A m h. induction h as [|x h IH]; intros e d; [reflexivity|].
  cbn [app last_event]. apply IH.
Qed.

Lemma accepted_app : forall a b, accepted (a ++ b) = accepted a ++ accepted b.
Proof.
  induction a as [|(i, o) a IH]; intros b; [reflexivity|]. cbn [app accepted]. rewrite IH.
  destruct o as [[|p]| | | | | |]; try reflexivity. destruct (submission i); reflexivity.
Qed.
Lemma calls_app : forall a b, calls (a ++ b) = calls a ++ calls b.
Proof.
  induction a as [|(i, o) a IH]; intros b; [reflexivity|]. cbn [app calls]. rewrite IH.
  destruct o; reflexivity.
Qed.
Lemma finished_app : forall a b, finished (a ++ b) = finished a ++ finished b.
Proof.
  induction a as [|(i, o) a IH]; intros b; [reflexivity|]. cbn [app finished]. rewrite IH.
  destruct o; reflexivity.
Qed.

Section PROOFS.
Variable BUFFER : nat.
Variable idents : list N -> N * N.
Variables (supported registered : bool).
Notation step := (step BUFFER idents supported registered).
Notation run := (run BUFFER idents supported registered).

(** What a submission can do. *)
Inductive submitted (s : state) (act starting nt er : N) (out : cell) (b : list N) (n : nat) (sz : nat)
  : state -> N -> Prop :=
| sub_taken : (sz <= BUFFER)%nat -> task s = Ready -> registered = true ->
    submitted s act starting nt er out b n sz
      (set_task (set_event (set_cell s out starting) act b n) Pending) 0
| sub_busy : (sz <= BUFFER)%nat -> task s <> Ready -> task s <> Off ->
    submitted s act starting nt er out b n sz s TASK_BUSY
| sub_big : (BUFFER < sz)%nat -> submitted s act starting nt er out b n sz s INPUT_TOO_BIG
| sub_none : (sz <= BUFFER)%nat -> task s = Off ->
    submitted s act starting nt er out b n sz (set_cell s out (STATUS nt NO_TASK)) NO_TASK
| sub_unknown : (sz <= BUFFER)%nat -> task s = Ready -> registered = false ->
    submitted s act starting nt er out b n sz
      (set_cell (set_event (set_cell s out starting) act b n) out (STATUS er EVENT_UNKNOWN_HANDLER))
      EVENT_UNKNOWN_HANDLER.

Lemma ser_zero : forall s nt er out, submit_event_result s 0 nt er out = (s, 0).
Proof. reflexivity. Qed.
Lemma ser_busy : forall s nt er out, submit_event_result s EVENT_BUSY nt er out = (s, TASK_BUSY).
Proof. reflexivity. Qed.
Lemma ser_big : forall s nt er out,
  submit_event_result s EVENT_TOO_MUCH_DATA nt er out = (s, INPUT_TOO_BIG).
Proof. reflexivity. Qed.
Lemma ser_none : forall s nt er out,
  submit_event_result s EVENT_NO_TASK nt er out = (set_cell s out (STATUS nt NO_TASK), NO_TASK).
Proof. reflexivity. Qed.
Lemma ser_unknown : forall s nt er out,
  submit_event_result s EVENT_UNKNOWN_HANDLER nt er out =
  (set_cell s out (STATUS er EVENT_UNKNOWN_HANDLER), EVENT_UNKNOWN_HANDLER).
Proof. reflexivity. Qed.

Lemma submit_event_cases : forall s act data st nt er out s' c,
  submit_event BUFFER registered s act data st nt er out = (s', c) ->
  submitted s act st nt er out
    (match data with Some d => splice (event_buffer s) 0 d | None => event_buffer s end)
    (match data with Some d => length d | None => 0%nat end)
    (match data with Some d => length d | None => 0%nat end) s' c.
Proof.
  clear idents supported. intros s act data st nt er out s' c H. unfold submit_event, submit in H.
  assert (L : length (match data with Some d => d | None => [] end) =
              match data with Some d => length d | None => 0%nat end) by (destruct data; reflexivity).
  rewrite L in H. destruct (Nat.ltb _ _) eqn:E.
  - rewrite ser_big in H. injection H as <- <-. apply sub_big. lia.
  - unfold get_event_context in H.
    assert (B : event_buffer (set_cell s out st) = event_buffer s) by (destruct out; reflexivity).
    destruct (task s) eqn:T.
    + change (EVENT_NO_TASK =? 0) with false in H. cbv iota in H. rewrite ser_none in H.
      injection H as <- <-. apply sub_none; [lia|exact T].
    + change (0 =? 0) with true in H. cbv iota zeta in H. rewrite B in H. clear B. unfold notify in H.
      destruct registered eqn:R.
      * rewrite ser_zero in H. injection H as <- <-.
        destruct data; (apply sub_taken; [lia|assumption|assumption]).
      * rewrite ser_unknown in H. injection H as <- <-.
        destruct data; (apply sub_unknown; [lia|assumption|assumption]).
    + change (EVENT_BUSY =? 0) with false in H. cbv iota in H. rewrite ser_busy in H.
      injection H as <- <-. apply sub_busy; [lia|congruence|congruence].
    + change (EVENT_BUSY =? 0) with false in H. cbv iota in H. rewrite ser_busy in H.
      injection H as <- <-. apply sub_busy; [lia|congruence|congruence].
    + change (EVENT_BUSY =? 0) with false in H. cbv iota in H. rewrite ser_busy in H.
      injection H as <- <-. apply sub_busy; [lia|congruence|congruence].
Qed.

Lemma authorized_cases : forall s p d s' c,
  execute_authorized_operation BUFFER registered s p d = (s', c) ->
  submitted s AUTHORIZED_OP CONF_STARTING CONF_TASK_NOT_RUNNING CONF_INTERNAL_ERROR ConfCell
    (splice (splice (event_buffer s) 0 p) POINTER d) (POINTER + length d) (POINTER + length d) s' c.
Proof.
  clear idents supported. intros s p d s' c H. unfold execute_authorized_operation in H.
  destruct (Nat.ltb _ _) eqn:E.
  - injection H as <- <-. apply sub_big. lia.
  - unfold get_event_context in H. destruct (task s) eqn:T.
    + change (EVENT_NO_TASK =? 0) with false in H. cbv iota zeta in H. rewrite ser_none in H.
      injection H as <- <-. apply sub_none; [lia|exact T].
    + change (0 =? 0) with true in H. cbv iota zeta in H. unfold notify in H.
      change (event_buffer (set_conf s CONF_STARTING)) with (event_buffer s) in H.
      destruct registered eqn:R.
      * rewrite ser_zero in H. injection H as <- <-. apply sub_taken; [lia|assumption|assumption].
      * rewrite ser_unknown in H. injection H as <- <-. apply sub_unknown; [lia|assumption|assumption].
    + change (EVENT_BUSY =? 0) with false in H. cbv iota zeta in H. rewrite ser_busy in H.
      injection H as <- <-. apply sub_busy; [lia|congruence|congruence].
    + change (EVENT_BUSY =? 0) with false in H. cbv iota zeta in H. rewrite ser_busy in H.
      injection H as <- <-. apply sub_busy; [lia|congruence|congruence].
    + change (EVENT_BUSY =? 0) with false in H. cbv iota zeta in H. rewrite ser_busy in H.
      injection H as <- <-. apply sub_busy; [lia|congruence|congruence].
Qed.

(** The word a client reads for the state of its unsealing. *)
Definition att_word (u : unsealing) : N :=
  match u with
  | Nothing => 4
  | InProgress => 1
  | Unsealed _ => 0
  | Failed e => e mod 2 ^ 24 * 256 + 2
  | NotStarted => NO_TASK mod 2 ^ 24 * 256 + 5
  | Unregistered => EVENT_UNKNOWN_HANDLER mod 2 ^ 24 * 256 + 7
  end.

Definition known (a : N) : Prop := 1 <= a <= 7.
Definition is_unseal (c : call) : Prop := match c with CUnseal _ => True | _ => False end.
Definition is_known (c : call) : Prop := match c with CUnknown _ => False | _ => True end.

Record Inv (cert0 : N) (h : history) (s : state) : Prop := mkInv {
  I_att : att s = att_word (last_event unseal_event h Nothing);
  I_key : forall k, last_event unseal_event h Nothing = Unsealed k -> key s = k;
  I_conf : conf s = last_event (operation_event idents) h 7;
  I_cert : cert s = last_event chain_event h cert0;
  I_pending : task s = Pending ->
    known (action s) /\ (action s = RUN_UNSEAL -> last_event unseal_event h Nothing = InProgress);
  I_running : forall c, task s = Running c ->
    is_known c /\ (is_unseal c -> last_event unseal_event h Nothing = InProgress);
  I_started : last_event started_event h false = match task s with Off => false | _ => true end;
  I_busy : last_event busy_event h false =
           match task s with Pending | Running _ | Elsewhere => true | _ => false end
}.

Lemma inv_init : forall (ca : bool) buf, Inv (if ca then 0 else 1) [] (init ca buf).
Proof.
  intros ca buf. constructor; cbn; try reflexivity; try discriminate.
Qed.

(** Submissions. *)
Definition att_of (out : cell) (c : N) (u : unsealing) : unsealing :=
  match out with
  | AttCell => if c =? 0 then InProgress else if c =? NO_TASK then NotStarted
               else if c =? EVENT_UNKNOWN_HANDLER then Unregistered else u
  | _ => u
  end.

Definition cell_value (out : cell) (c : N) (starting nt er : N) (old : N) : N :=
  if c =? 0 then starting else if c =? NO_TASK then STATUS nt NO_TASK
  else if c =? EVENT_UNKNOWN_HANDLER then STATUS er EVENT_UNKNOWN_HANDLER else old.

Lemma submitted_state : forall s act st nt er out b n sz s' c,
  submitted s act st nt er out b n sz s' c ->
  att s' = match out with AttCell => cell_value out c st nt er (att s) | _ => att s end /\
  conf s' = match out with ConfCell => cell_value out c st nt er (conf s) | _ => conf s end /\
  cert s' = match out with CertCell => cell_value out c st nt er (cert s) | _ => cert s end /\
  key s' = key s /\
  (c = 0 /\ task s = Ready /\ task s' = Pending /\ action s' = act \/
   c <> 0 /\ task s' = task s /\ (task s = Pending -> action s' = action s)).
Proof.
  intros s act st nt er out b n sz s' c H. inversion H; subst; destruct out;
    cbn [att conf cert key task action set_cell set_att set_conf set_cert set_task set_event]; (split; [reflexivity|]);
    (split; [reflexivity|]); (split; [reflexivity|]); (split; [reflexivity|]);
    first [left; split; [reflexivity|]; split; [assumption|]; split; reflexivity
          |right; split; [discriminate|]; split; [reflexivity|]; intros; congruence].
Qed.

Lemma inv_submitted : forall cert0 h s i act st nt er out b n sz s' c,
  Inv cert0 h s -> submitted s act st nt er out b n sz s' c -> submission i = true -> known act ->
  last_event unseal_event (h ++ [(i, Code c)]) Nothing =
    att_of out c (last_event unseal_event h Nothing) ->
  (act = RUN_UNSEAL <-> out = AttCell) ->
  (out = AttCell -> st = 1 /\ nt = 5 /\ er = 7) ->
  last_event (operation_event idents) (h ++ [(i, Code c)]) 7 =
    match out with ConfCell => cell_value out c st nt er (last_event (operation_event idents) h 7)
                 | _ => last_event (operation_event idents) h 7 end ->
  last_event chain_event (h ++ [(i, Code c)]) cert0 =
    match out with CertCell => cell_value out c st nt er (last_event chain_event h cert0)
                 | _ => last_event chain_event h cert0 end ->
  Inv cert0 (h ++ [(i, Code c)]) s'.
Proof.
  intros cert0 h s i act st nt er out b n sz s' c V H Hi Hk Ha Hu Hst Ho Hc.
  destruct (submitted_state _ _ _ _ _ _ _ _ _ _ _ H) as (A1 & A2 & A3 & A4 & A5).
  destruct V as [Va Vk Vo Vc Vp Vr Vs Vb].
  constructor.
  - rewrite A1, Ha, Va. destruct out; cbn [att_of]; try reflexivity.
    destruct (Hst eq_refl) as (-> & -> & ->). unfold cell_value.
    destruct (c =? 0); [reflexivity|]. destruct (c =? NO_TASK); [apply status_word; reflexivity|].
    destruct (c =? EVENT_UNKNOWN_HANDLER); [apply status_word; reflexivity|reflexivity].
  - intros k Hk'. rewrite A4. apply Vk. rewrite Ha in Hk'. destruct out; cbn [att_of] in Hk'; try exact Hk'.
    destruct (c =? 0); [discriminate|]. destruct (c =? NO_TASK); [discriminate|].
    destruct (c =? EVENT_UNKNOWN_HANDLER); [discriminate|exact Hk'].
  - rewrite A2, Ho, Vo. reflexivity.
  - rewrite A3, Hc, Vc. reflexivity.
  - intros T. destruct A5 as [(-> & T0 & T1 & Hact)|(Hn & T1 & Hact)].
    + rewrite Hact. split; [exact Hk|]. intros E. apply Hu in E. rewrite Ha, E. reflexivity.
    + rewrite T in T1. symmetry in T1. rewrite (Hact T1). destruct (Vp T1) as (P1 & P2).
      split; [exact P1|]. intros E. rewrite Ha, (P2 E).
      inversion H; subst; try congruence; destruct out; reflexivity.
  - intros c0 T. destruct A5 as [(-> & T0 & T1 & Hact)|(Hn & T1 & Hact)]; [congruence|].
    rewrite T in T1. symmetry in T1. destruct (Vr _ T1) as (P1 & P2).
    split; [exact P1|]. intros E. rewrite Ha, (P2 E).
    inversion H; subst; try congruence; destruct out; reflexivity.
  - rewrite last_snoc. replace (started_event (i, Code c)) with (@None bool)
      by (destruct i; try reflexivity; discriminate Hi).
    rewrite Vs. destruct A5 as [(-> & T0 & T1 & Hact)|(Hn & T1 & Hact)]; rewrite T1; [rewrite T0|]; reflexivity.
  - rewrite last_snoc. destruct A5 as [(-> & T0 & T1 & Hact)|(Hn & T1 & Hact)]; rewrite T1.
    + replace (busy_event (i, Code 0)) with (Some true)
        by (destruct i; try reflexivity; discriminate Hi). reflexivity.
    + replace (busy_event (i, Code c)) with (@None bool); [exact Vb|].
      destruct c as [|p]; [congruence|]. destruct i; reflexivity.
Qed.

(** A step that changes nothing and says nothing of interest. *)
Lemma inv_same : forall cert0 h s e, Inv cert0 h s ->
  unseal_event e = None -> operation_event idents e = None -> chain_event e = None ->
  busy_event e = None -> (started_event e = None \/ started_event e = Some true /\ task s <> Off) ->
  Inv cert0 (h ++ [e]) s.
Proof.
  intros cert0 h s e [Va Vk Vo Vc Vp Vr Vs Vb] H1 H2 H3 H4 H5.
  constructor; try rewrite last_snoc; try rewrite H1; try rewrite H2; try rewrite H3; try rewrite H4; auto.
  destruct H5 as [H5|(H5 & T)]; rewrite H5; [exact Vs|]. destruct (task s); [congruence| | | |]; reflexivity.
Qed.

Hypothesis idents_bytes : forall p, snd (idents p) < 256.

Lemma inv_step : forall cert0 h s i s' o, Inv cert0 h s -> step s i = (s', o) ->
  Inv cert0 (h ++ [(i, o)]) s'.
Proof.
  intros cert0 h s i s' o V H. destruct i; cbn [Background_Model.step] in H.
  - (* StartUnseal *)
    unfold coded in H. destruct (unseal_start _ _ _ s request) as (s1, c) eqn:E. cbn [fst snd] in H.
    injection H as <- <-. unfold unseal_start in E.
    destruct (Nat.eqb _ _).
    { injection E as <- <-. apply inv_same; auto. }
    destruct (negb supported).
    { injection E as <- <-. apply inv_same; auto. }
    apply submit_event_cases in E. eapply inv_submitted; [exact V|exact E|reflexivity|split; discriminate| |split; reflexivity| | |].
    + rewrite last_snoc. unfold att_of. cbn [unseal_event]. destruct (c =? 0); [reflexivity|].
      destruct (c =? NO_TASK); [reflexivity|]. destruct (c =? EVENT_UNKNOWN_HANDLER); reflexivity.
    + intros _. repeat split.
    + rewrite last_snoc. reflexivity.
    + rewrite last_snoc. reflexivity.
  - (* UnsealResult *)
    unfold unseal_result in H. destruct (negb supported).
    { injection H as <- <-. apply inv_same; auto. }
    destruct (att s =? ATT_SUCCESS) eqn:E.
    2: { injection H as <- <-. apply inv_same; auto. }
    destruct (Nat.ltb room KEY_LENGTH).
    { injection H as <- <-. apply inv_same; auto. }
    injection H as <- <-. destruct V as [Va Vk Vo Vc Vp Vr Vs Vb]. unfold ATT_SUCCESS in E.
    constructor; cbn [att key conf cert task action set_att]; try rewrite last_snoc; cbn [unseal_event operation_event chain_event started_event busy_event];
      try reflexivity; auto.
    + discriminate.
    + intros T. destruct (Vp T) as (P1 & P2). split; [exact P1|]. intros A. exfalso.
      rewrite (P2 A) in Va. rewrite Va in E. discriminate E.
    + intros c T. destruct (Vr c T) as (P1 & P2). split; [exact P1|]. intros A. exfalso.
      rewrite (P2 A) in Va. rewrite Va in E. discriminate E.
  - (* Authorized *)
    unfold coded in H. destruct (execute_authorized_operation _ _ s pointer data) as (s1, c) eqn:E. cbn [fst snd] in H.
    injection H as <- <-. apply authorized_cases in E.
    eapply inv_submitted; [exact V|exact E|reflexivity|split; discriminate| |split; discriminate| | |].
    + rewrite last_snoc. reflexivity.
    + discriminate.
    + rewrite last_snoc. unfold cell_value. cbn [operation_event]. destruct (c =? 0); [reflexivity|].
      destruct (c =? NO_TASK); [symmetry; apply status_word; reflexivity|].
      destruct (c =? EVENT_UNKNOWN_HANDLER); [symmetry; apply status_word; reflexivity|reflexivity].
    + rewrite last_snoc. reflexivity.
  - injection H as <- <-. apply inv_same; auto.
  - (* Authenticate *)
    unfold coded in H. destruct (authenticate_riot_certs _ _ s) as (s1, c) eqn:E. cbn [fst snd] in H.
    injection H as <- <-. unfold authenticate_riot_certs in E. apply submit_event_cases in E.
    eapply inv_submitted; [exact V|exact E|reflexivity|split; discriminate| |split; discriminate| | |].
    + rewrite last_snoc. reflexivity.
    + discriminate.
    + rewrite last_snoc. reflexivity.
    + rewrite last_snoc. unfold cell_value. cbn [chain_event]. destruct (c =? 0); [reflexivity|].
      destruct (c =? NO_TASK); [symmetry; apply status_word; reflexivity|].
      destruct (c =? EVENT_UNKNOWN_HANDLER); [symmetry; apply status_word; reflexivity|reflexivity].
  - injection H as <- <-. apply inv_same; auto.
  - unfold coded in H. destruct (reboot_device _ _ s) as (s1, c) eqn:E. cbn [fst snd] in H.
    injection H as <- <-. unfold reboot_device in E. apply submit_event_cases in E.
    eapply inv_submitted; [exact V|exact E|reflexivity|split; discriminate| |split; discriminate|discriminate| |];
      rewrite last_snoc; reflexivity.
  - unfold coded in H. destruct (debug_log_clear _ _ s) as (s1, c) eqn:E. cbn [fst snd] in H.
    injection H as <- <-. unfold debug_log_clear in E. apply submit_event_cases in E.
    eapply inv_submitted; [exact V|exact E|reflexivity|split; discriminate| |split; discriminate|discriminate| |];
      rewrite last_snoc; reflexivity.
  - unfold coded in H. destruct (debug_log_fill _ _ s) as (s1, c) eqn:E. cbn [fst snd] in H.
    injection H as <- <-. unfold debug_log_fill in E. apply submit_event_cases in E.
    eapply inv_submitted; [exact V|exact E|reflexivity|split; discriminate| |split; discriminate|discriminate| |];
      rewrite last_snoc; reflexivity.
  - unfold coded in H. destruct (generate_aux_key _ _ s pointer) as (s1, c) eqn:E. cbn [fst snd] in H.
    injection H as <- <-. unfold generate_aux_key in E. apply submit_event_cases in E.
    eapply inv_submitted; [exact V|exact E|reflexivity|split; discriminate| |split; discriminate|discriminate| |];
      rewrite last_snoc; reflexivity.
  - (* StartTask *)
    destruct (task s) eqn:T; injection H as <- <-.
    2-5: apply inv_same; auto; right; split; [reflexivity|congruence].
    destruct V as [Va Vk Vo Vc Vp Vr Vs Vb].
    constructor; cbn [att key conf cert task action set_task]; try rewrite last_snoc;
      cbn [unseal_event operation_event chain_event started_event busy_event]; auto; try discriminate.
    + rewrite Vb, T. reflexivity.
  - (* Take *)
    destruct (task s) eqn:T; try (injection H as <- <-; apply inv_same; auto; fail).
    destruct V as [Va Vk Vo Vc Vp Vr Vs Vb]. destruct (Vp T) as (K & U). rewrite T in Vs, Vb.
    unfold dispatch in H. unfold known in K.
    destruct (action s =? RUN_UNSEAL) eqn:A1.
    { injection H as <- <-. apply N.eqb_eq in A1.
      constructor; cbn [att key conf cert task action set_task]; try rewrite last_snoc;
        cbn [unseal_event operation_event chain_event started_event busy_event]; auto; try discriminate.
      - intros c Ec. injection Ec as <-. split; [exact Logic.I|]. intros _. exact (U A1). }
    destruct (action s =? AUTHORIZED_OP) eqn:A2.
    { injection H as <- <-.
      constructor; cbn [att key conf cert task action set_task set_conf]; try rewrite last_snoc;
        cbn [unseal_event operation_event chain_event started_event busy_event]; auto; try discriminate.
      - intros c Ec. injection Ec as <-. split; [exact Logic.I|]. intros []. }
    unfold RUN_UNSEAL, AUTHORIZED_OP in *.
    assert (Q : exists c, H = H /\ is_known c /\ ~ is_unseal c /\ (s', o) = (set_task s (Running c), Calls c) /\
                (forall p d, c <> COperation p d)).
    { destruct (action s =? DEBUG_LOG_CLEAR) eqn:A3; [exists CClearLog; cbn; repeat split; auto; discriminate|].
      destruct (action s =? DEBUG_LOG_FILL) eqn:A4; [exists CFillLog; cbn; repeat split; auto; discriminate|].
      destruct (action s =? AUTH_RIOT) eqn:A5; [exists CVerifyCerts; cbn; repeat split; auto; discriminate|].
      destruct (action s =? AUX_KEY_GEN) eqn:A6; [eexists; split; [reflexivity|]; split; [|split; [|split; [symmetry; exact H|]]]; cbn; auto; discriminate|].
      destruct (action s =? REBOOT_DEVICE) eqn:A7; [exists CReboot; cbn; repeat split; auto; discriminate|].
      exfalso. unfold DEBUG_LOG_CLEAR, DEBUG_LOG_FILL, AUTH_RIOT, AUX_KEY_GEN, REBOOT_DEVICE in *. lia. }
    destruct Q as (c & _ & Kc & Uc & Eq & No). injection Eq as -> ->.
    assert (O : operation_event idents (Take, Calls c) = None) by (destruct c; try reflexivity; exfalso; eapply No; reflexivity).
    constructor; cbn [att key conf cert task action set_task]; try rewrite last_snoc; try rewrite O;
      cbn [unseal_event chain_event started_event busy_event]; auto; try discriminate.
    + intros c' Ec. injection Ec as <-. split; [exact Kc|]. intros X. contradiction.
  - (* Scribble *)
    destruct (task s) as [| | |[]|] eqn:T; try (injection H as <- <-; apply inv_same; auto; fail).
    injection H as <- <-. destruct V as [Va Vk Vo Vc Vp Vr Vs Vb].
    destruct (Vr _ T) as (_ & U). specialize (U Logic.I).
    constructor; cbn [att key conf cert task action set_key]; try rewrite last_snoc;
      cbn [unseal_event operation_event chain_event started_event busy_event]; auto.
    + rewrite U. discriminate.

  - (* Return *)
    destruct (task s) as [| | |c|] eqn:T; try (injection H as <- <-; apply inv_same; auto; fail).
    destruct V as [Va Vk Vo Vc Vp Vr Vs Vb]. destruct (Vr _ T) as (Kc & U). rewrite T in Vs, Vb.
    destruct c; cbn [finish] in H; try contradiction Kc; injection H as <- <-;
      (constructor; cbn [att key conf cert task action set_task set_key set_att set_conf set_cert];
       try rewrite last_snoc; cbn [unseal_event operation_event chain_event started_event busy_event];
       auto; try discriminate).
    + destruct (status =? 0) eqn:E; [apply N.eqb_eq in E; exact E|]. cbn [att_word]. apply status_word. reflexivity.
    + intros k. destruct (status =? 0); [congruence|discriminate].
    + destruct (status =? 0) eqn:E; [apply N.eqb_eq in E; exact E|]. apply status_word. apply idents_bytes.
    + destruct (status =? 0) eqn:E; [apply N.eqb_eq in E; exact E|]. apply status_word. reflexivity.
  - (* Other *)
    destruct (task s) eqn:T; try (injection H as <- <-; apply inv_same; auto; fail).
    injection H as <- <-. destruct V as [Va Vk Vo Vc Vp Vr Vs Vb]. rewrite T in Vs.
    constructor; cbn [att key conf cert task action set_task set_event]; try rewrite last_snoc;
      cbn [unseal_event operation_event chain_event started_event busy_event]; auto; try discriminate.

  - (* OtherDone *)
    destruct (task s) eqn:T; try (injection H as <- <-; apply inv_same; auto; fail).
    injection H as <- <-. destruct V as [Va Vk Vo Vc Vp Vr Vs Vb]. rewrite T in Vs.
    constructor; cbn [att key conf cert task action set_task set_event]; try rewrite last_snoc;
      cbn [unseal_event operation_event chain_event started_event busy_event]; auto; try discriminate.

Qed.

Lemma inv_run : forall cert0 is s h t s', Inv cert0 h s -> run s is = (t, s') -> Inv cert0 (h ++ t) s'.
Proof.
  intros cert0 is. induction is as [|i r IH]; intros s h t s' V H; cbn [Background_Model.run] in H.
  - injection H as <- <-. rewrite app_nil_r. exact V.
  - destruct (step s i) as (s1, o) eqn:E. destruct (run s1 r) as (t1, s2) eqn:E2. injection H as <- <-.
    replace (h ++ (i, o) :: t1) with ((h ++ [(i, o)]) ++ t1) by (rewrite <- app_assoc; reflexivity).
    eapply IH; [|exact E2]. eapply inv_step; [exact V|exact E].
Qed.

(** The moment of an event in a history. *)
Lemma run_split : forall is s h i o t sf, run s is = (h ++ (i, o) :: t, sf) ->
  exists is1 is2 s1 s2, is = is1 ++ i :: is2 /\ run s is1 = (h, s1) /\ step s1 i = (s2, o).
Proof.
  intros is. induction is as [|j r IH]; intros s h i o t sf H; cbn [Background_Model.run] in H.
  - destruct h; discriminate H.
  - destruct (step s j) as (s1, o1) eqn:E. destruct (run s1 r) as (t1, s2) eqn:E2. injection H as H <-.
    destruct h as [|e h]; cbn [app] in H.
    + injection H as -> -> ->. exists [], r, s, s1. split; [reflexivity|]. split; [reflexivity|exact E].
    + injection H as <- ->. destruct (IH _ _ _ _ _ _ E2) as (is1 & is2 & sa & sb & P1 & P2 & P3).
      exists (j :: is1), is2, sa, sb. split; [cbn; congruence|]. split; [|exact P3].
      cbn [Background_Model.run]. rewrite E, P2. reflexivity.
Qed.
End PROOFS.
