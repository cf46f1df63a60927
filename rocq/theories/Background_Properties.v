(** C73: background commands. *)
From Coq Require Import List NArith Lia Bool Arith ZifyBool ZifyNat ZifyN.
From Verif Require Import Base Unseal_Model Unseal_Spec Unseal_Properties Background_Model
  Background_Spec Background_Proofs Background_Calls_Proofs.
Import ListNotations.
Local Open Scope N_scope.

(** Asking for the result of unsealing says what the history says: nothing,
    in progress, the key, or the error, of the last request that was taken. *)
Theorem C73_unseal : forall BUFFER idents registered ca buf is h room o t s,
  (forall p, snd (idents p) < 256) ->
  run BUFFER idents true registered (init ca buf) is = (h ++ (UnsealResult room, o) :: t, s) ->
  o = unseal_answer (last_event unseal_event h Nothing) room.
Proof.
  intros BUFFER idents registered ca buf is h room o t s Hi H.
  destruct (run_split _ _ _ _ _ _ _ _ _ _ _ H) as (is1 & is2 & s1 & s2 & _ & R & S1).
  pose proof (inv_run _ _ _ _ Hi _ _ _ _ _ _ (inv_init idents ca buf) R) as V.
  cbn [app] in V. destruct V as [Va Vk _ _ _ _ _ _].
  cbn [step] in S1. unfold unseal_result in S1. change (negb true) with false in S1. cbv iota in S1.
  unfold ATT_SUCCESS, KEY_LENGTH in S1. rewrite Va in S1.
  destruct (last_event unseal_event h Nothing) as [| |k|e| |] eqn:L; cbn [att_word] in S1.
  - injection S1 as _ <-. reflexivity.
  - injection S1 as _ <-. reflexivity.
  - rewrite (Vk k eq_refl) in S1. cbn [unseal_answer]. change (0 =? 0) with true in S1. cbv iota in S1.
    destruct (Nat.ltb room 32) eqn:E.
    + replace (Nat.leb 32 room) with false by lia. injection S1 as _ <-. reflexivity.
    + replace (Nat.leb 32 room) with true by lia. injection S1 as _ <-. reflexivity.
  - cbn [unseal_answer]. replace (e mod 2 ^ 24 * 256 + 2 =? 0) with false in S1.
    + injection S1 as _ <-. reflexivity.
    + symmetry. apply N.eqb_neq. intros Z. apply N.eq_add_0 in Z. destruct Z as (_ & Z). discriminate Z.
  - injection S1 as _ <-. reflexivity.
  - injection S1 as _ <-. reflexivity.
Qed.
Print Assumptions C73_unseal.

Lemma last_found : forall {A} (m : input * output -> option A) h d a,
  last_event m h d = a -> a <> d ->
  exists x e y, h = x ++ e :: y /\ m e = Some a /\ Forall (fun e => m e = None) y.
Proof.
  intros A m h. induction h as [|e h IH] using rev_ind; intros d a H N.
  - cbn in H. congruence.
  - rewrite last_snoc in H. destruct (m e) as [b|] eqn:E.
    + subst b. exists h, e, []. repeat split; [exact E|constructor].
    + destruct (IH d a H N) as (x & e' & y & -> & P & Q). exists x, e', (y ++ [e]).
      split; [rewrite <- app_assoc; reflexivity|]. split; [exact P|]. apply Forall_app. split; [exact Q|].
      constructor; [exact E|constructor].
Qed.

(** A key that is handed out is the one that the last unsealing produced, which
    succeeded; since then no request was taken and no key handed out. *)
Theorem C73_key : forall BUFFER idents registered ca buf is h room c st k t s,
  (forall p, snd (idents p) < 256) ->
  run BUFFER idents true registered (init ca buf) is =
    (h ++ (UnsealResult room, Result c st (Some k)) :: t, s) ->
  c = 0 /\ st = 0 /\ (32 <= room)%nat /\
  exists a b args reset, h = a ++ (Return 0 k reset, Finished (CUnseal args) false) :: b /\
    (forall r, ~ In (StartUnseal r, Code 0) b) /\
    (forall room' c' st' k', ~ In (UnsealResult room', Result c' st' (Some k')) b).
Proof.
  intros BUFFER idents registered ca buf is h room c st k t s Hi H.
  pose proof (C73_unseal _ _ _ _ _ _ _ _ _ _ _ Hi H) as U.
  destruct (last_event unseal_event h Nothing) as [| |k'|e| |] eqn:L; cbn [unseal_answer] in U;
    try discriminate U.
  destruct (Nat.leb 32 room) eqn:E; [|discriminate U]. injection U as -> -> ->.
  split; [reflexivity|]. split; [reflexivity|]. split; [lia|].
  destruct (last_found _ _ _ _ L) as (a & e & b & -> & P & Q); [discriminate|].
  destruct e as (i, o).
  assert (X : exists args reset r, i = Return 0 k' r /\ o = Finished (CUnseal args) reset).
  { destruct i; cbn [unseal_event] in P; try discriminate P.
    - destruct o; try discriminate P. destruct (c =? 0); [discriminate P|].
      destruct (c =? NO_TASK); [discriminate P|]. destruct (c =? EVENT_UNKNOWN_HANDLER); discriminate P.
    - destruct o as [| ? ? []| | | | |]; discriminate P.
    - destruct o as [| | | |[] | |]; try discriminate P. destruct (status =? 0) eqn:Z; [|discriminate P].
      injection P as ->. apply N.eqb_eq in Z. subst status. repeat eexists. }
  destruct X as (args & reset & r & -> & ->).
  assert (reset = false).
  { rewrite <- app_assoc in H. cbn [app] in H.
    destruct (run_split _ _ _ _ _ _ _ _ _ _ _ H) as (_ & _ & s1 & s2 & _ & _ & S1).
    cbn [step] in S1. destruct (task s1); try discriminate S1.
    destruct (finish idents s1 c 0 k' r) as (s3, x) eqn:F. injection S1 as _ -> ->.
    cbn [finish] in F. congruence. }
  subst reset. exists a, b, args, r. split; [reflexivity|].
  rewrite Forall_forall in Q. split.
  - intros q X. specialize (Q _ X). discriminate Q.
  - intros r' c' st' k0 X. specialize (Q _ X). discriminate Q.
Qed.
Print Assumptions C73_key.

(** The status of authorized operations. *)
Theorem C73_operation : forall BUFFER idents supported registered ca buf is h o t s,
  (forall p, snd (idents p) < 256) ->
  run BUFFER idents supported registered (init ca buf) is = (h ++ (OperationStatus, o) :: t, s) ->
  o = Value (last_event (operation_event idents) h 7).
Proof.
  intros BUFFER idents supported registered ca buf is h o t s Hi H.
  destruct (run_split _ _ _ _ _ _ _ _ _ _ _ H) as (is1 & is2 & s1 & s2 & _ & R & S1).
  pose proof (inv_run _ _ _ _ Hi _ _ _ _ _ _ (inv_init idents ca buf) R) as V.
  cbn [step] in S1. injection S1 as _ <-. rewrite (I_conf _ _ _ _ V). reflexivity.
Qed.
Print Assumptions C73_operation.

(** The status of the certificate chain, which starts with whether there is a
    root CA. *)
Theorem C73_chain : forall BUFFER idents supported registered (ca : bool) buf is h o t s,
  (forall p, snd (idents p) < 256) ->
  run BUFFER idents supported registered (init ca buf) is = (h ++ (ChainState, o) :: t, s) ->
  o = Value (last_event chain_event h (if ca then 0 else 1)).
Proof.
  intros BUFFER idents supported registered ca buf is h o t s Hi H.
  destruct (run_split _ _ _ _ _ _ _ _ _ _ _ H) as (is1 & is2 & s1 & s2 & _ & R & S1).
  pose proof (inv_run _ _ _ _ Hi _ _ _ _ _ _ (inv_init idents ca buf) R) as V.
  cbn [step] in S1. injection S1 as _ <-. rewrite (I_cert _ _ _ _ V). reflexivity.
Qed.
Print Assumptions C73_chain.

(** An invalid chain never reads as valid: zero is read only if there was a root
    CA and nothing was verified since, or the last verification succeeded. *)
Theorem C73_chain_valid : forall BUFFER idents supported registered (ca : bool) buf is h t s,
  (forall p, snd (idents p) < 256) ->
  run BUFFER idents supported registered (init ca buf) is = (h ++ (ChainState, Value 0) :: t, s) ->
  (ca = true /\ forall k r reset c, In (Return c k r, Finished CVerifyCerts reset) h -> False) \/
  exists a b k r reset, h = a ++ (Return 0 k r, Finished CVerifyCerts reset) :: b /\
    forall k' r' reset' c, ~ In (Return c k' r', Finished CVerifyCerts reset') b.
Proof.
  intros BUFFER idents supported registered ca buf is h t s Hi H.
  pose proof (C73_chain _ _ _ _ _ _ _ _ _ _ _ Hi H) as V. injection V as V. symmetry in V. clear H s t is.
  revert V.
  assert (G : forall d, last_event chain_event h d = 0 ->
    (d = 0 /\ forall k r reset c, In (Return c k r, Finished CVerifyCerts reset) h -> False) \/
    exists a b k r reset, h = a ++ (Return 0 k r, Finished CVerifyCerts reset) :: b /\
      forall k' r' reset' c, ~ In (Return c k' r', Finished CVerifyCerts reset') b).
  { induction h as [|e h IH] using rev_ind; intros d V.
    - left. split; [exact V|]. intros k r reset c [].
    - rewrite last_snoc in V. destruct (chain_event e) as [v|] eqn:E.
      + subst v. right. destruct e as (i, o). destruct i; cbn [chain_event] in E; try discriminate E.
        * destruct o; try discriminate E. destruct (c =? 0); [discriminate E|].
          destruct (c =? NO_TASK); [discriminate E|]. destruct (c =? EVENT_UNKNOWN_HANDLER); discriminate E.
        * destruct o as [| | | |[] | |]; try discriminate E. destruct (status =? 0) eqn:Z.
          -- apply N.eqb_eq in Z. subst status. exists h, [], unsealed, wants_reset, reset.
             split; [reflexivity|]. intros k' r' reset' c [].
          -- exfalso. injection E as E. apply N.eq_add_0 in E. destruct E as (_ & E). discriminate E.
      + destruct (IH d V) as [(D & No)|(a & b & k & r & reset & -> & No)].
        * left. split; [exact D|]. intros k r reset c X. apply in_app_or in X. destruct X as [X|[X|[]]].
          -- exact (No _ _ _ _ X).
          -- subst e. discriminate E.
        * right. exists a, (b ++ [e]), k, r, reset. split; [rewrite <- app_assoc; reflexivity|].
          intros k' r' reset' c X. apply in_app_or in X. destruct X as [X|[X|[]]].
          -- exact (No _ _ _ _ X).
          -- subst e. discriminate E. }
  intros V. destruct (G _ V) as [(D & No)|X]; [left|right; exact X].
  destruct ca; [|discriminate D]. split; [reflexivity|exact No].
Qed.
Print Assumptions C73_chain_valid.

(** What is executed is what was accepted, in order, each once, with exactly
    the operation and data that were passed; and what was started finishes
    before anything else is accepted. *)
Theorem C73_executed : forall BUFFER idents supported registered ca buf is h s,
  length buf = BUFFER -> Forall (proper BUFFER) is ->
  run BUFFER idents supported registered (init ca buf) is = (h, s) ->
  exists done pending, accepted h = done ++ pending /\ (length pending <= 1)%nat /\
    Forall2 asked done (calls h) /\
    exists running, calls h = finished h ++ running /\
      (length running + length pending <= 1)%nat.
Proof.
  intros BUFFER idents supported registered ca buf is h s Hb Hp H.
  pose proof (calling_run _ _ _ _ _ _ _ _ _ (calling_init BUFFER idents ca buf Hb) Hp H) as V.
  destruct V as [_ V]. cbn [app] in V. destruct (task s).
  - destruct V as (V1 & V2). exists (accepted h), []. rewrite app_nil_r. split; [reflexivity|].
    split; [cbn; lia|]. split; [exact V1|]. exists []. rewrite app_nil_r. split; [congruence|cbn; lia].
  - destruct V as (V1 & V2). exists (accepted h), []. rewrite app_nil_r. split; [reflexivity|].
    split; [cbn; lia|]. split; [exact V1|]. exists []. rewrite app_nil_r. split; [congruence|cbn; lia].
  - destruct V as (done & i & V1 & V2 & V3 & V4). exists done, [i]. split; [exact V1|].
    split; [cbn; lia|]. split; [exact V2|]. exists []. rewrite app_nil_r. split; [congruence|cbn; lia].
  - destruct V as (V1 & V2). exists (accepted h), []. rewrite app_nil_r. split; [reflexivity|].
    split; [cbn; lia|]. split; [exact V1|]. exists [c]. split; [exact V2|cbn; lia].
  - destruct V as (V1 & V2). exists (accepted h), []. rewrite app_nil_r. split; [reflexivity|].
    split; [cbn; lia|]. split; [exact V1|]. exists []. rewrite app_nil_r. split; [congruence|cbn; lia].
Qed.
Print Assumptions C73_executed.

Lemma submitted_code : forall BUFFER registered s act st nt er out b n sz s' c,
  submitted BUFFER registered s act st nt er out b n sz s' c ->
  c = if Nat.ltb BUFFER sz then INPUT_TOO_BIG
      else match task s with
           | Off => NO_TASK
           | Ready => if registered then 0 else EVENT_UNKNOWN_HANDLER
           | _ => TASK_BUSY
           end.
Proof.
  intros BUFFER registered s act st nt er out b n sz s' c H.
  inversion H; subst;
    try (replace (Nat.ltb BUFFER sz) with false by lia); try (replace (Nat.ltb BUFFER sz) with true by lia).
  - rewrite H1. reflexivity.
  - destruct (task s'); congruence.
  - reflexivity.
  - rewrite H1. reflexivity.
  - rewrite H1. reflexivity.
Qed.

(** The answer to a submission: it is too big, or there is no task, or the task
    is busy, or it is accepted. *)
Theorem C73_accepts : forall BUFFER idents ca buf is h i o t s,
  (forall p, snd (idents p) < 256) -> proper BUFFER i -> submission i = true ->
  run BUFFER idents true true (init ca buf) is = (h ++ (i, o) :: t, s) ->
  o = Code (if Nat.ltb BUFFER (size i) then INPUT_TOO_BIG
            else if negb (last_event started_event h false) then NO_TASK
            else if last_event busy_event h false then TASK_BUSY else 0).
Proof.
  intros BUFFER idents ca buf is h i o t s Hi Hp Hs H.
  destruct (run_split _ _ _ _ _ _ _ _ _ _ _ H) as (is1 & is2 & s1 & s2 & _ & R & S1).
  pose proof (inv_run _ _ _ _ Hi _ _ _ _ _ _ (inv_init idents ca buf) R) as V.
  cbn [app] in V. rewrite (I_started _ _ _ _ V), (I_busy _ _ _ _ V).
  assert (G : forall act st nt er out b n s3 c, submitted BUFFER true s1 act st nt er out b n (size i) s3 c ->
    c = if Nat.ltb BUFFER (size i) then INPUT_TOO_BIG
        else if negb (match task s1 with Off => false | _ => true end) then NO_TASK
        else if match task s1 with Pending | Running _ | Elsewhere => true | _ => false end then TASK_BUSY
        else 0).
  { intros act st nt er out b n s3 c X. apply submitted_code in X. rewrite X.
    destruct (Nat.ltb BUFFER (size i)); [reflexivity|]. destruct (task s1); reflexivity. }
  destruct i; try discriminate Hs; cbn [step] in S1; unfold coded in S1; cbn [proper] in Hp.
  - destruct (unseal_start BUFFER true true s1 request) as (s3, c) eqn:E. cbn [fst snd] in S1. injection S1 as _ <-.
    f_equal. unfold unseal_start in E. destruct Hp as (f & W & ->).
    replace (Nat.eqb (length (encode f)) 0) with false in E
      by (symmetry; rewrite length_encode by exact W; reflexivity).
    change (negb true) with false in E. cbv iota in E. apply submit_event_cases in E. eapply G. exact E.
  - destruct (execute_authorized_operation BUFFER true s1 pointer data) as (s3, c) eqn:E. cbn [fst snd] in S1.
    injection S1 as _ <-. f_equal. apply authorized_cases in E. unfold POINTER in E. rewrite <- Hp in E.
    eapply G. exact E.
  - destruct (authenticate_riot_certs BUFFER true s1) as (s3, c) eqn:E. cbn [fst snd] in S1.
    injection S1 as _ <-. f_equal. apply submit_event_cases in E. eapply G. exact E.
  - destruct (reboot_device BUFFER true s1) as (s3, c) eqn:E. cbn [fst snd] in S1.
    injection S1 as _ <-. f_equal. apply submit_event_cases in E. eapply G. exact E.
  - destruct (debug_log_clear BUFFER true s1) as (s3, c) eqn:E. cbn [fst snd] in S1.
    injection S1 as _ <-. f_equal. apply submit_event_cases in E. eapply G. exact E.
  - destruct (debug_log_fill BUFFER true s1) as (s3, c) eqn:E. cbn [fst snd] in S1.
    injection S1 as _ <-. f_equal. apply submit_event_cases in E. eapply G. exact E.
  - destruct (generate_aux_key BUFFER true s1 pointer) as (s3, c) eqn:E. cbn [fst snd] in S1.
    injection S1 as _ <-. f_equal. apply submit_event_cases in E. eapply G. exact E.
Qed.
Print Assumptions C73_accepts.

(** The device is reset only because somebody asked for a reboot, or an
    authorized operation wanted it. *)
Theorem C73_reset : forall BUFFER idents supported registered ca buf is h i c reset t s,
  (forall p, snd (idents p) < 256) ->
  run BUFFER idents supported registered (init ca buf) is = (h ++ (i, Finished c reset) :: t, s) ->
  reset = true <-> c = CReboot \/ exists p d st k, c = COperation p d /\ i = Return st k true.
Proof.
  intros BUFFER idents supported registered ca buf is h i c reset t s Hi H.
  destruct (run_split _ _ _ _ _ _ _ _ _ _ _ H) as (is1 & is2 & s1 & s2 & _ & R & S1).
  pose proof (inv_run _ _ _ _ Hi _ _ _ _ _ _ (inv_init idents ca buf) R) as V.
  assert (X : exists st k r, i = Return st k r /\ task s1 = Running c /\ snd (finish idents s1 c st k r) = reset).
  { destruct i; cbn [step] in S1; unfold coded in S1; try discriminate S1.
    - unfold unseal_result in S1. destruct (negb supported); [discriminate S1|].
      destruct (att s1 =? ATT_SUCCESS); [|discriminate S1]. destruct (Nat.ltb room KEY_LENGTH); discriminate S1.
    - destruct (task s1); discriminate S1.
    - destruct (task s1); try discriminate S1. destruct (dispatch idents s1). discriminate S1.
    - destruct (task s1) as [| | |[]|]; discriminate S1.
    - destruct (task s1) as [| | |c0|] eqn:T; try discriminate S1.
      destruct (finish idents s1 c0 status unsealed wants_reset) as (s3, r) eqn:F. injection S1 as _ <- <-.
      exists status, unsealed, wants_reset. rewrite F. repeat split.
    - destruct (task s1); discriminate S1.
    - destruct (task s1); discriminate S1. }
  destruct X as (st & k & r & -> & T & F). destruct (I_running _ _ _ _ V c T) as (K & _).
  destruct c; cbn [finish snd] in F; try contradiction K; subst reset; split; intros G;
    try discriminate G; try (left; reflexivity); try reflexivity;
    try (destruct G as [G|(p & d & st' & k' & G & _)]; discriminate G).
  - right. subst r. do 4 eexists. split; reflexivity.
  - destruct G as [G|(p & d & st' & k' & _ & G)]; [discriminate G|]. injection G as _ _ ->. reflexivity.
Qed.
Print Assumptions C73_reset.

(** A history: an unseal request is taken, refused while it runs, answered with
    the key once, and an authorized operation follows. *)
Definition demo_is : list input :=
  [StartTask; StartUnseal (encode demo); UnsealResult 64; Take; Scribble (repeat 1 32);
   Authorized [1; 2; 3; 4; 5; 6; 7; 8] [9]; UnsealResult 64; Return 0 (repeat 7 32) true;
   UnsealResult 8; UnsealResult 64; UnsealResult 64;
   Authorized [1; 2; 3; 4; 5; 6; 7; 8] [9]; Take; OperationStatus; Return 17 [] true; OperationStatus].

Example C73_demo :
  fst (run 400 (fun _ => (3, 4)) true true (init true (repeat 0 400)) demo_is) =
  combine demo_is
    [Quiet; Code 0; Result 0 1 None; Calls (CUnseal (Some (request_of demo))); Quiet;
     Code TASK_BUSY; Result 0 1 None; Finished (CUnseal (Some (request_of demo))) false;
     Result BUF_TOO_SMALL 0 None; Result 0 0 (Some (repeat 7 32)); Result 0 4 None;
     Code 0; Calls (COperation [1; 2; 3; 4; 5; 6; 7; 8] [9]); Value 3;
     Finished (COperation [1; 2; 3; 4; 5; 6; 7; 8] [9]) true; Value (17 * 256 + 4)].
Proof. vm_compute. reflexivity. Qed.
