(** Proofs about background commands: what is executed. *)
From Coq Require Import List NArith Lia Bool Arith ZifyBool ZifyNat ZifyN.
From Verif Require Import Base Unseal_Model Unseal_Spec Unseal_Properties Background_Model
  Background_Spec Background_Proofs.
Import ListNotations.
Local Open Scope N_scope.

Section PROOFS.
Variable BUFFER : nat.
Variable idents : list N -> N * N.
Variables (supported registered : bool).
Notation step := (step BUFFER idents supported registered).
Notation run := (run BUFFER idents supported registered).
Notation dispatch := (dispatch idents).
Notation submitted := (submitted BUFFER registered).

Record Calling (h : history) (s : state) : Prop := mkCalling {
  C_buffer : length (event_buffer s) = BUFFER;
  C_calls :
    match task s with
    | Pending => exists done i, accepted h = done ++ [i] /\ Forall2 asked done (calls h) /\
        finished h = calls h /\ asked i (snd (dispatch s))
    | Running c => Forall2 asked (accepted h) (calls h) /\ calls h = finished h ++ [c]
    | _ => Forall2 asked (accepted h) (calls h) /\ finished h = calls h
    end
}.

Lemma dispatch_task : forall s p, snd (dispatch (set_task s p)) = snd (dispatch s).
Proof.
  intros s p. unfold Background_Model.dispatch, set_task. cbn [action event_buffer buffer_length].
  repeat match goal with |- context [if ?b then _ else _] =>
    match b with (action s =? _) => destruct b; [reflexivity|] end end.
  reflexivity.
Qed.

(** A step that is not an acceptance, a call or an end. *)
Lemma calling_same : forall h s s' e, Calling h s -> task s' = task s ->
  length (event_buffer s') = BUFFER -> (task s = Pending -> snd (dispatch s') = snd (dispatch s)) ->
  accepted [e] = [] -> calls [e] = [] -> finished [e] = [] -> Calling (h ++ [e]) s'.
Proof.
  intros h s s' e [B V] T B' D A1 A2 A3. constructor; [exact B'|]. rewrite T.
  rewrite accepted_app, calls_app, finished_app, A1, A2, A3, !app_nil_r.
  destruct (task s) eqn:E; try exact V. rewrite (D eq_refl). exact V.
Qed.

Lemma accepted_one : forall i c, submission i = true -> c <> 0 -> accepted [(i, Code c)] = [].
Proof. intros i c _ H. cbn [accepted]. destruct c; [congruence|reflexivity]. Qed.

Lemma calling_submitted : forall h s i act st nt er out b n sz s' c,
  Calling h s -> submitted s act st nt er out b n sz s' c -> submission i = true ->
  ((sz <= BUFFER)%nat -> length b = BUFFER /\
   forall s0, action s0 = act -> event_buffer s0 = b -> buffer_length s0 = n ->
     asked i (snd (dispatch s0))) ->
  Calling (h ++ [(i, Code c)]) s'.
Proof.
  intros h s i act st nt er out b n sz s' c V H Hi Hb. inversion H; subst.
  - destruct (Hb H0) as (Lb & Ha). destruct V as [B V]. rewrite H1 in V. destruct V as (V1 & V2).
    constructor; [destruct out; exact Lb|]. cbn [task set_task].
    exists (accepted h), i. rewrite accepted_app, calls_app, finished_app.
    cbn [calls finished accepted]. rewrite Hi, !app_nil_r. split; [reflexivity|].
    split; [exact V1|]. split; [exact V2|]. apply Ha; destruct out; reflexivity.
  - eapply calling_same; [exact V|reflexivity|apply (C_buffer _ _ V)|reflexivity| |reflexivity|reflexivity].
    apply accepted_one; [exact Hi|discriminate].
  - eapply calling_same; [exact V|reflexivity|apply (C_buffer _ _ V)|reflexivity| |reflexivity|reflexivity].
    apply accepted_one; [exact Hi|discriminate].
  - eapply calling_same; [exact V|destruct out; reflexivity| | | |reflexivity|reflexivity].
    + pose proof (C_buffer _ _ V). destruct out; assumption.
    + intros P. congruence.
    + apply accepted_one; [exact Hi|discriminate].
  - destruct (Hb H0) as (Lb & Ha).
    eapply calling_same; [exact V|destruct out; reflexivity| | | |reflexivity|reflexivity].
    + destruct out; exact Lb.
    + intros P. congruence.
    + apply accepted_one; [exact Hi|discriminate].
Qed.

Lemma splice_front : forall (l d : list N), splice l 0 d = d ++ skipn (length d) l.
Proof. reflexivity. Qed.

Lemma window_front : forall (a b : list N) n, length a = n -> window 0 n (a ++ b) = a.
Proof.
  intros a b n <-. unfold window. cbn [skipn]. rewrite firstn_app, Nat.sub_diag, firstn_all.
  apply app_nil_r.
Qed.

Lemma calling_step : forall h s i s' o, Calling h s -> proper BUFFER i -> step s i = (s', o) ->
  Calling (h ++ [(i, o)]) s'.
Proof.
  intros h s i s' o V P H. pose proof (C_buffer _ _ V) as Lb.
  destruct i; cbn [Background_Model.step] in H; cbn [proper] in P.
  - (* StartUnseal *)
    unfold coded in H. destruct (unseal_start _ _ _ s request) as (s1, c) eqn:E. cbn [fst snd] in H.
    injection H as <- <-. unfold unseal_start in E. destruct (Nat.eqb _ _).
    { injection E as <- <-. apply calling_same with (s := s); auto. }
    destruct (negb supported).
    { injection E as <- <-. apply calling_same with (s := s); auto. }
    apply submit_event_cases in E. destruct P as (f & W & ->).
    eapply calling_submitted; [exact V|exact E|reflexivity|]. intros L.
    split; [rewrite length_splice; [exact Lb|rewrite Lb; exact L]|]. intros s0 A B _.
    unfold Background_Model.dispatch. rewrite A, B. change (RUN_UNSEAL =? RUN_UNSEAL) with true. cbv iota.
    cbn [snd]. rewrite splice_front, C72_arguments by exact W. constructor. exact W.
  - (* UnsealResult *)
    unfold unseal_result in H. destruct (negb supported).
    { injection H as <- <-. apply calling_same with (s := s); auto. }
    destruct (att s =? ATT_SUCCESS).
    2: { injection H as <- <-. apply calling_same with (s := s); auto. }
    destruct (Nat.ltb room KEY_LENGTH); injection H as <- <-; apply calling_same with (s := s); auto.
    intros _. unfold Background_Model.dispatch, set_att. cbn [action event_buffer buffer_length].
    repeat match goal with |- context [if ?b then _ else _] =>
      match b with (action s =? _) => destruct b; [reflexivity|] end end.
    reflexivity.
  - (* Authorized *)
    unfold coded in H. destruct (execute_authorized_operation _ _ s pointer data) as (s1, c) eqn:E.
    cbn [fst snd] in H. injection H as <- <-. apply authorized_cases in E.
    eapply calling_submitted; [exact V|exact E|reflexivity|]. intros L. unfold POINTER in *.
    assert (L1 : length (splice (event_buffer s) 0 pointer) = BUFFER) by (rewrite length_splice; lia).
    split; [rewrite length_splice; lia|]. intros s0 A B C.
    unfold Background_Model.dispatch. rewrite A, B, C.
    change (AUTHORIZED_OP =? RUN_UNSEAL) with false. change (AUTHORIZED_OP =? AUTHORIZED_OP) with true.
    cbv iota zeta. cbn [snd]. unfold POINTER.
    assert (W1 : window 0 8 (splice (splice (event_buffer s) 0 pointer) 8 data) = pointer).
    { unfold splice at 1. rewrite splice_front, firstn_app, <- P, Nat.sub_diag, firstn_all, app_nil_r.
      apply window_front. reflexivity. }
    assert (W2 : window 8 (length data) (splice (splice (event_buffer s) 0 pointer) 8 data) = data).
    { apply window_splice. lia. }
    rewrite W1. replace (8 + length data - 8)%nat with (length data) by lia. rewrite W2.
    destruct data as [|x d].
    + constructor.
    + cbn [length]. replace (Nat.ltb 8 (8 + S (length d))) with true by lia. constructor.
  - injection H as <- <-. apply calling_same with (s := s); auto.
  - unfold coded in H. destruct (authenticate_riot_certs _ _ s) as (s1, c) eqn:E. cbn [fst snd] in H.
    injection H as <- <-. unfold authenticate_riot_certs in E. apply submit_event_cases in E.
    eapply calling_submitted; [exact V|exact E|reflexivity|]. intros _. split; [exact Lb|].
    intros s0 A _ _. unfold Background_Model.dispatch. rewrite A. constructor.
  - injection H as <- <-. apply calling_same with (s := s); auto.
  - unfold coded in H. destruct (reboot_device _ _ s) as (s1, c) eqn:E. cbn [fst snd] in H.
    injection H as <- <-. unfold reboot_device in E. apply submit_event_cases in E.
    eapply calling_submitted; [exact V|exact E|reflexivity|]. intros _. split; [exact Lb|].
    intros s0 A _ _. unfold Background_Model.dispatch. rewrite A. constructor.
  - unfold coded in H. destruct (debug_log_clear _ _ s) as (s1, c) eqn:E. cbn [fst snd] in H.
    injection H as <- <-. unfold debug_log_clear in E. apply submit_event_cases in E.
    eapply calling_submitted; [exact V|exact E|reflexivity|]. intros _. split; [exact Lb|].
    intros s0 A _ _. unfold Background_Model.dispatch. rewrite A. constructor.
  - unfold coded in H. destruct (debug_log_fill _ _ s) as (s1, c) eqn:E. cbn [fst snd] in H.
    injection H as <- <-. unfold debug_log_fill in E. apply submit_event_cases in E.
    eapply calling_submitted; [exact V|exact E|reflexivity|]. intros _. split; [exact Lb|].
    intros s0 A _ _. unfold Background_Model.dispatch. rewrite A. constructor.
  - unfold coded in H. destruct (generate_aux_key _ _ s pointer) as (s1, c) eqn:E. cbn [fst snd] in H.
    injection H as <- <-. unfold generate_aux_key in E. apply submit_event_cases in E.
    eapply calling_submitted; [exact V|exact E|reflexivity|]. intros L.
    split; [rewrite length_splice; lia|]. intros s0 A B _.
    unfold Background_Model.dispatch. rewrite A, B.
    change (AUX_KEY_GEN =? RUN_UNSEAL) with false. change (AUX_KEY_GEN =? AUTHORIZED_OP) with false.
    change (AUX_KEY_GEN =? DEBUG_LOG_CLEAR) with false. change (AUX_KEY_GEN =? DEBUG_LOG_FILL) with false.
    change (AUX_KEY_GEN =? AUTH_RIOT) with false. change (AUX_KEY_GEN =? AUX_KEY_GEN) with true.
    cbv iota. cbn [snd]. rewrite splice_front. unfold POINTER. rewrite window_front by exact P. constructor.
  - (* StartTask *)
    destruct (task s) eqn:T; injection H as <- <-.
    2-5: apply calling_same with (s := s); auto.
    destruct V as [_ V]. rewrite T in V. constructor; [exact Lb|]. cbn [task set_task].
    rewrite accepted_app, calls_app, finished_app. cbn [accepted calls finished]. rewrite !app_nil_r. exact V.
  - (* Take *)
    destruct (task s) eqn:T; try (injection H as <- <-; apply calling_same with (s := s); auto; fail).
    destruct V as [_ V]. rewrite T in V. destruct V as (done & i & V1 & V2 & V3 & V4).
    assert (D : length (event_buffer (fst (dispatch s))) = BUFFER).
    { unfold Background_Model.dispatch. destruct (action s =? RUN_UNSEAL); [exact Lb|].
      destruct (action s =? AUTHORIZED_OP); [exact Lb|].
      repeat match goal with |- context [if ?b then _ else _] =>
        match b with (action s =? _) => destruct b; [exact Lb|] end end. exact Lb. }
    destruct (dispatch s) as (s1, c). cbn [fst snd] in *. injection H as <- <-.
    constructor; [exact D|]. cbn [task set_task].
    rewrite accepted_app, calls_app, finished_app. cbn [accepted calls finished]. rewrite !app_nil_r.
    split; [|rewrite V3; reflexivity]. rewrite V1. apply Forall2_app; [exact V2|].
    constructor; [exact V4|constructor].
  - (* Scribble *)
    destruct (task s) as [| | |[]|] eqn:T; injection H as <- <-; apply calling_same with (s := s); auto.
    congruence.
  - (* Return *)
    destruct (task s) as [| | |c|] eqn:T; try (injection H as <- <-; apply calling_same with (s := s); auto; fail).
    destruct V as [_ V]. rewrite T in V. destruct V as (V1 & V2).
    destruct (finish idents s c status unsealed wants_reset) as (s1, r) eqn:F. injection H as <- <-.
    assert (D : event_buffer s1 = event_buffer s).
    { replace s1 with (fst (finish idents s c status unsealed wants_reset)) by (rewrite F; reflexivity).
      destruct c; try reflexivity. cbn [finish].
      destruct (att s =? ATT_RUNNING), (conf s =? CONF_STARTING), (cert s =? CERT_VALIDATING); reflexivity. }
    constructor; [cbn [event_buffer set_task]; congruence|]. cbn [task set_task].
    rewrite accepted_app, calls_app, finished_app. cbn [accepted calls finished]. rewrite !app_nil_r.
    split; [exact V1|]. symmetry. exact V2.
  - (* Other *)
    destruct (task s) eqn:T; try (injection H as <- <-; apply calling_same with (s := s); auto; fail).
    injection H as <- <-. destruct V as [_ V]. rewrite T in V. constructor; [exact P|].
    cbn [task set_task].
    rewrite accepted_app, calls_app, finished_app. cbn [accepted calls finished submission]. rewrite !app_nil_r.
    exact V.
  - (* OtherDone *)
    destruct (task s) eqn:T; try (injection H as <- <-; apply calling_same with (s := s); auto; fail).
    injection H as <- <-. destruct V as [_ V]. rewrite T in V. constructor; [exact Lb|].
    cbn [task set_task].
    rewrite accepted_app, calls_app, finished_app. cbn [accepted calls finished submission]. rewrite !app_nil_r.
    exact V.
Qed.

Lemma calling_run : forall is s h t s', Calling h s -> Forall (proper BUFFER) is ->
  run s is = (t, s') -> Calling (h ++ t) s'.
Proof.
  intros is. induction is as [|i r IH]; intros s h t s' V P H; cbn [Background_Model.run] in H.
  - injection H as <- <-. rewrite app_nil_r. exact V.
  - destruct (step s i) as (s1, o) eqn:E. destruct (run s1 r) as (t1, s2) eqn:E2. injection H as <- <-.
    inversion P; subst.
    replace (h ++ (i, o) :: t1) with ((h ++ [(i, o)]) ++ t1) by (rewrite <- app_assoc; reflexivity).
    eapply IH; [|eassumption|exact E2]. eapply calling_step; [exact V|assumption|exact E].
Qed.

Lemma calling_init : forall ca buf, length buf = BUFFER -> Calling [] (init ca buf).
Proof. intros ca buf H. constructor; [exact H|]. cbn. split; [constructor|reflexivity]. Qed.
End PROOFS.
