(** C67: the hashes of SPDM transcripts. *)
From Coq Require Import List NArith Bool Arith Lia.
From Verif Require Import Base Transcript_Model Transcript_Spec Transcript_Proofs Transcript_Messages_Proofs.
Import ListNotations.

(** Whatever the calls (for sessions that there are), nothing is accessed out of bounds, and a hash that is returned is the one of the
    transcript the call is about, if no update of it failed since it was begun: the transcript began when its first message was added after
    the last reset or final hash. *)
Theorem C67_hash : forall MAXS VCAMAX HASH engines s0 l,
  init MAXS engines = Some s0 -> Forall (valid (sessions MAXS engines)) l ->
  exists s es, run MAXS VCAMAX HASH s0 l = Some (s, es) /\ map fst es = l /\
  forall e1 e2 k finish session i g h, es = e1 ++ (GetHash k finish session i g, RHash h) :: e2 ->
  exists c, target k session i = Some c /\ mismatched k session = false /\
    match w_tr (views (sessions MAXS engines) view0 e1) c with
    | Good a b => h = HASH a b
    | Spoiled => True
    | Empty => False
    end.
Proof.
  intros MAXS VCAMAX HASH engines s0 l H F.
  destruct (run_inv MAXS VCAMAX HASH (sessions MAXS engines) l s0 view0 ltac:(unfold sessions; lia) (init_inv MAXS VCAMAX engines s0 H) F) as (s & es & R & _ & M & EX).
  exists s, es. split; [exact R|]. split; [exact M|]. intros e1 e2 k fin session i g h E. destruct (EX _ _ _ E) as [[X|(h' & c & X & TG & _ & MM & HH)] _]; [discriminate|].
  injection X as <-. exists c. auto.
Qed.
Print Assumptions C67_hash.

(** The hash of a transcript is the one of the VCA (where the specification has it) and the messages that were added, in order, whatever was
    done to the other transcripts in between. *)
Theorem C67_messages : forall MAXS VCAMAX HASH engines s0 l s es e0 e1 e2 k finish session i g h c a,
  init MAXS engines = Some s0 -> Forall (valid (sessions MAXS engines)) l ->
  run MAXS VCAMAX HASH s0 l = Some (s, es) ->
  es = e0 ++ e1 ++ (GetHash k finish session i g, RHash h) :: e2 ->
  target k session i = Some c ->
  w_tr (views (sessions MAXS engines) view0 e0) c = Empty ->
  w_algo (views (sessions MAXS engines) view0 e0) = Some a ->
  Forall (quiet (sessions MAXS engines) c) e1 ->
  let w := views (sessions MAXS engines) view0 e0 in
  messages c e1 <> [] /\ h = HASH a ((if with_vca c (w_ver w) then w_vca w else []) ++ messages c e1).
Proof.
  intros MAXS VCAMAX HASH engines s0 l s es e0 e1 e2 k fin session i g h c a H F R E TG EM AL Q w.
  destruct (C67_hash MAXS VCAMAX HASH engines s0 l H F) as (s' & es' & R' & _ & X). rewrite R in R'. injection R' as <- <-.
  rewrite app_assoc in E. destruct (X _ _ _ _ _ _ _ _ E) as (c' & TG' & _ & Y). rewrite TG in TG'. injection TG' as <-.
  unfold views in Y. rewrite fold_left_app in Y. fold (views (sessions MAXS engines) view0 e0) in Y. fold w in Y.
  destruct (quiet_views (sessions MAXS engines) c e1 w a Q AL) as (T & _). unfold views in T. rewrite T in Y. unfold longer in Y.
  rewrite (EM : w_tr w c = Empty) in Y. destruct (messages c e1) as [|x m]; [destruct Y|]. split; [discriminate|exact Y].
Qed.
Print Assumptions C67_messages.

(** Calls succeed unless an engine fails: a message is added if there is an algorithm, the hash of a transcript that was begun is returned,
    and the algorithm is set if there is none.  The VCA takes what fits. *)
Theorem C67_available : forall MAXS VCAMAX HASH engines s0 l s es,
  init MAXS engines = Some s0 -> Forall (valid (sessions MAXS engines)) l ->
  run MAXS VCAMAX HASH s0 l = Some (s, es) -> forall e1 e e2, es = e1 ++ e :: e2 ->
  let n := sessions MAXS engines in let w := views n view0 e1 in
  match e with
  | (SetAlgo (Some a), r) => r = match w_algo w with None => ROk | Some _ => RErr end
  | (Update KVca msg _ _ _, r) => r = (if negb (length msg =? 0) && (length (w_vca w) + length msg <=? VCAMAX) then ROk else RErr)
  | (Update k msg session i f, r) =>
    f_start f = true -> f_vca f = None -> f_msg f = None -> msg <> [] -> target k session i <> None -> w_algo w <> None -> r = ROk
  | (GetHash k finish session i g, r) =>
    forall c a b, target k session i = Some c -> mismatched k session = false -> (session = true -> i < n) ->
    w_tr w c = Good a b -> g = true -> r = RHash (HASH a b)
  | _ => True
  end.
Proof.
  intros MAXS VCAMAX HASH engines s0 l s es H F R e1 e e2 E n w.
  destruct (run_inv MAXS VCAMAX HASH (sessions MAXS engines) l s0 view0 ltac:(unfold sessions; lia) (init_inv MAXS VCAMAX engines s0 H) F) as (s' & es' & R' & _ & _ & EX).
  rewrite R in R'. injection R' as <- <-. specialize (EX _ _ _ E). fold n w in EX. destruct e as [[[a|]|v|k m session i f|k fin session i g|k session i|i|] r]; try exact Logic.I.
  - exact EX.
  - destruct k; cbn [explained] in EX; try (intros F1 F2 F3; apply EX; repeat split; assumption). exact EX.
  - destruct EX as [_ EX]. intros c a b TG MM IN. apply (EX c a b TG MM). destruct k, session; cbn in TG, MM; try discriminate; injection TG as <-; cbn; auto.
Qed.
Print Assumptions C67_available.

(** A message for the TH of a session is not checked for its session if the caller says it is for none: the session is then accessed out of
    bounds. *)
Theorem C67_th_bounds_refuted : forall MAXS VCAMAX HASH engines s0 msg i f,
  init MAXS engines = Some s0 -> msg <> [] -> MAXS <= i -> step MAXS VCAMAX HASH s0 (Update KTh msg false i f) = None.
Proof.
  intros MAXS VCAMAX HASH engines s0 msg i f H NE L. unfold init in H. destruct (engines <? 2); [discriminate|].
  pose proof (f_equal (fun o => match o with Some x => x | None => s0 end) H) as E; cbv beta iota in E; subst s0; clear H.
  unfold step, update. destruct msg as [|x msg]; [congruence|]. replace (length (x :: msg) =? 0) with false by reflexivity. cbn [andb].
  unfold add_msg. cbn [ctx_of s_sess].
  replace (nth_error _ i) with (@None (hctx * hctx)); [reflexivity|]. symmetry. apply nth_error_None. rewrite map_length, seq_length. exact L.
Qed.
Print Assumptions C67_th_bounds_refuted.

(** With too few engines for a session, a message for it is nevertheless added, with the engine of M1/M2: from then on, whatever is reset, no
    message can be added to M1/M2 and there is no hash of it. *)
Theorem C67_few_engines_refuted : forall MAXS VCAMAX HASH engines s0 a msg l s es,
  engines = 2 \/ engines = 3 -> 0 < MAXS -> init MAXS engines = Some s0 -> msg <> [] ->
  run MAXS VCAMAX HASH s0 (SetAlgo (Some a) :: Update KL1L2 msg true 0 (Fault true None None) :: l) = Some (s, es) ->
  firstn 2 es = [(SetAlgo (Some a), ROk); (Update KL1L2 msg true 0 (Fault true None None), ROk)] /\
  forall o r, In (o, r) es ->
    (forall m session i f, o = Update KM1M2 m session i f -> r = RErr) /\ (forall fin session i g, o = GetHash KM1M2 fin session i g -> r = RErr).
Proof.
  intros MAXS VCAMAX HASH engines s0 a msg l s es EN M H NE R.
  assert (ZE : Nat.min ((engines - 2) / 2) MAXS = 0) by (destruct EN as [-> | ->]; reflexivity).
  unfold init in H. replace (engines <? 2) with false in H by (destruct EN as [-> | ->]; reflexivity).
  pose proof (f_equal (fun o => match o with Some x => x | None => s0 end) H) as E; cbv beta iota zeta in E; clear H. rewrite ZE in E.
  assert (EN' : exists k, engines = S (S k)) by (destruct EN as [-> | ->]; eexists; reflexivity). destruct EN' as (k & ->).
  destruct MAXS as [|M']; [lia|]. destruct msg as [|x msg]; [congruence|].
  assert (A : exists s2, step (S M') VCAMAX HASH (set_algo s0 (Some a)) (Update KL1L2 (x :: msg) true 0 (Fault true None None)) = Some (s2, ROk) /\ Stuck s2).
  { subst s0. eexists. split; [reflexivity|]. unfold Stuck. cbn. do 3 (split; [reflexivity|]). split; [eexists; reflexivity|].
    constructor; [auto|]. apply Forall_forall. intros p HP. apply in_map_iff in HP as (j & <- & _). auto. }
  destruct A as (s2 & A & ST).
  assert (A0 : step (S M') VCAMAX HASH s0 (SetAlgo (Some a)) = Some (set_algo s0 (Some a), ROk)) by (subst s0; reflexivity).
  cbn [run] in R. rewrite A0, A in R. destruct (run (S M') VCAMAX HASH s2 l) as [[s3 es3]|] eqn:RR; [|discriminate].
  injection R as <- <-. split; [reflexivity|]. intros o r [X|[X|HI]].
  - injection X as <- <-. split; discriminate.
  - injection X as <- <-. split; discriminate.
  - eapply stuck_run; [exact ST|exact RR|exact HI].
Qed.
Print Assumptions C67_few_engines_refuted.

(** If the engine fails to take the VCA, the update fails, but the hash is begun: after the message is added again, the hash lacks the VCA. *)
Theorem C67_failed_update_refuted : forall MAXS VCAMAX HASH a vca msg, vca <> [] -> msg <> [] -> length vca <= VCAMAX ->
  exists s0 s,
  init MAXS 2 = Some s0 /\
  run MAXS VCAMAX HASH s0
    [SetAlgo (Some a); Update KVca vca false 0 (Fault true None None); Update KM1M2 msg false 0 (Fault true (Some []) None);
     Update KM1M2 msg false 0 (Fault true None None); GetHash KM1M2 true false 0 true] =
  Some (s,
    [(SetAlgo (Some a), ROk); (Update KVca vca false 0 (Fault true None None), ROk); (Update KM1M2 msg false 0 (Fault true (Some []) None), RErr);
     (Update KM1M2 msg false 0 (Fault true None None), ROk); (GetHash KM1M2 true false 0 true, RHash (HASH a msg))]).
Proof.
  intros MAXS VCAMAX HASH a vca msg V M L. eexists _, _. split; [reflexivity|].
  destruct vca as [|x vca]; [congruence|]. destruct msg as [|y msg]; [congruence|].
  cbn [run step s_algo]. unfold update at 1. replace (length (x :: vca) =? 0) with false by reflexivity. cbn [s_vca set_algo length].
  cbn [length] in L. destruct (Nat.ltb_spec (VCAMAX - 0) (S (length vca))) as [X|X]; [lia|]. cbn [app set_vca].
  reflexivity.
Qed.
Print Assumptions C67_failed_update_refuted.

(** A run meeting the hypotheses: a session and the global transcripts interleaved, with a failed engine in another transcript. *)
Definition ok_fault := Fault true None None.
Definition show_ops : list op :=
  [SetAlgo (Some 7%N); SetVersion 18; Update KVca [1; 2]%N false 0 ok_fault; Update KM1M2 [3]%N false 0 ok_fault; Update KTh [4]%N true 0 ok_fault;
   Update KL1L2 [5]%N true 0 (Fault true None (Some [9]%N)); Update KM1M2 [6]%N false 0 ok_fault; Update KTh [7]%N true 0 ok_fault;
   GetHash KM1M2 true false 0 true; GetHash KTh false true 0 true; Update KTh [8]%N true 0 ok_fault; GetHash KTh true true 0 true;
   GetHash KTh true true 0 true; ResetAll; GetHash KL1L2 true true 0 true].
Definition results (r : option (state * list (op * result))) : list result := match r with Some (_, es) => map snd es | None => [] end.
Example C67_case : exists s0, init 1 4 = Some s0 /\ Forall (valid (sessions 1 4)) show_ops /\
  results (run 1 256 (fun a b => a :: b) s0 show_ops) =
  [ROk; ROk; ROk; ROk; ROk; RErr; ROk; ROk; RHash [7; 1; 2; 3; 6]%N; RHash [7; 1; 2; 4; 7]%N; ROk; RHash [7; 1; 2; 4; 7; 8]%N; RErr; ROk; RErr].
Proof. eexists. split; [reflexivity|]. split; [repeat constructor|]. reflexivity. Qed.

(** The hypotheses of C67_messages are met by the TH transcript of that run. *)
Example C67_messages_case : exists s0 e0 e1 e2, init 1 4 = Some s0 /\
  option_map snd (run 1 256 (fun a b => a :: b) s0 show_ops) = Some (e0 ++ e1 ++ (GetHash KTh true true 0 true, RHash [7; 1; 2; 4; 7; 8]%N) :: e2) /\
  w_tr (views (sessions 1 4) view0 e0) (CTh 0) = Empty /\ w_algo (views (sessions 1 4) view0 e0) = Some 7%N /\
  Forall (quiet (sessions 1 4) (CTh 0)) e1 /\ messages (CTh 0) e1 = [4; 7; 8]%N.
Proof.
  eexists _, (combine (firstn 3 show_ops) [ROk; ROk; ROk]),
    (combine (firstn 8 (skipn 3 show_ops)) [ROk; ROk; RErr; ROk; ROk; RHash [7; 1; 2; 3; 6]%N; RHash [7; 1; 2; 4; 7]%N; ROk]), (combine (skipn 12 show_ops) [RErr; ROk; RErr]).
  split; [reflexivity|]. split; [vm_compute; reflexivity|]. split; [reflexivity|]. split; [reflexivity|]. split; [|reflexivity].
  cbn [show_ops firstn skipn combine]. repeat constructor; cbn; congruence.
Qed.

(** With two engines the session message blocks M1/M2 for good. *)
Example C67_few_engines_case : exists s0, init 1 2 = Some s0 /\
  results (run 1 256 (fun a b => a :: b) s0
    [SetAlgo (Some 7%N); Update KL1L2 [1]%N true 0 ok_fault; Update KM1M2 [2]%N false 0 ok_fault; ResetSession 0; ResetAll; SetAlgo (Some 7%N);
     Update KM1M2 [2]%N false 0 ok_fault]) = [ROk; ROk; RErr; ROk; ROk; ROk; RErr].
Proof. eexists. split; reflexivity. Qed.
