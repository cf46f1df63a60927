(** Proofs about the messages of one transcript among the others, and about managers with too few engines. *)
From Coq Require Import List NArith Bool Arith Lia.
From Verif Require Import Base Transcript_Model Transcript_Spec Transcript_Proofs.
Import ListNotations.

Definition env_same (w w' : view) : Prop := w_algo w' = w_algo w /\ w_vca w' = w_vca w /\ w_ver w' = w_ver w.
(** The transcript after some more bytes *)
Definition longer (w : view) (c : cname) (a : N) (m : list N) : transcript :=
  match w_tr w c, m with
  | Empty, [] => Empty
  | Empty, _ => Good a ((if with_vca c (w_ver w) then w_vca w else []) ++ m)
  | Good a' b, _ => Good a' (b ++ m)
  | Spoiled, _ => Spoiled
  end.

Lemma set_tr_env : forall w c t, env_same w (set_tr w c t).
Proof. intros. unfold env_same. cbn. auto. Qed.
Lemma set_tr_other : forall w c d t, d <> c -> w_tr (set_tr w d t) c = w_tr w c.
Proof. intros. cbn [set_tr w_tr]. rewrite same_neq by assumption. reflexivity. Qed.
Lemma set_tr_eq : forall w c t, w_tr (set_tr w c t) c = t.
Proof. intros. cbn [set_tr w_tr]. rewrite same_refl. reflexivity. Qed.
Lemma longer_nil : forall w c a, longer w c a [] = w_tr w c.
Proof. intros. unfold longer. destruct (w_tr w c); try reflexivity. rewrite app_nil_r. reflexivity. Qed.
Lemma longer_append : forall w c a m, w_algo w = Some a -> m <> [] -> append w c m = longer w c a m.
Proof. intros w c a m A M. unfold append, longer. rewrite A. destruct (w_tr w c), m; try reflexivity; congruence. Qed.

Definition own (c : cname) (e : op * result) : list N := messages c [e].
Lemma messages_cons : forall c e es, messages c (e :: es) = own c e ++ messages c es.
Proof. intros c [[] r] es; unfold own; cbn [messages app]; try reflexivity. rewrite app_nil_r. reflexivity. Qed.

Lemma quiet_step : forall n c e w a, quiet n c e -> w_algo w = Some a ->
  env_same w (observe n w e) /\ w_tr (observe n w e) c = longer w c a (own c e).
Proof.
  intros n c [o r] w a Q A. unfold own.
  assert (SAME : env_same w w /\ w_tr w c = longer w c a []) by (split; [unfold env_same; auto|rewrite longer_nil; reflexivity]).
  assert (OTHER : forall d t, d <> c -> env_same w (set_tr w d t) /\ w_tr (set_tr w d t) c = longer w c a []).
  { intros d t N. split; [apply set_tr_env|]. rewrite longer_nil. apply set_tr_other, N. }
  destruct o as [al|v|k msg session i f|k fin session i g|k session i|i|]; cbn [messages].
  - destruct r; [cbn in Q; congruence| |]; exact SAME.
  - destruct Q.
  - rewrite app_nil_r.
    assert (GEN : k <> KVca -> env_same w (observe n w (Update k msg session i f, r)) /\
      w_tr (observe n w (Update k msg session i f, r)) c = longer w c a (if match target k session i with Some d => same d c | None => false end then msg else [])).
    { intros K. destruct (target k session i) as [d|] eqn:TG.
      2:{ destruct k; try contradiction; cbn in TG; try discriminate. cbn [observe target]. exact SAME. }
      assert (Q' : d = c -> r = ROk) by (intros ->; destruct k; try contradiction; apply Q, TG).
      replace (observe n w (Update k msg session i f, r)) with
        (match msg, r with [], _ => w | _, ROk => set_tr w d (append w d msg) | _, _ => set_tr w d Spoiled end).
      2:{ destruct k; try contradiction; unfold observe; rewrite TG; destruct msg; reflexivity. }
      destruct (cname_dec d c) as [->|N].
      - rewrite (Q' eq_refl), same_refl. destruct msg as [|x msg]; [exact SAME|]. split; [apply set_tr_env|].
        rewrite set_tr_eq. apply longer_append; [exact A|discriminate].
      - rewrite same_neq by exact N. destruct msg as [|x msg]; [exact SAME|]. destruct r; apply OTHER, N. }
    destruct k; try (apply GEN; discriminate). cbn [target]. cbn [quiet] in Q. destruct r; [congruence| |]; exact SAME.
  - destruct r; [destruct fin; exact SAME|destruct fin; exact SAME|]. destruct fin; [|exact SAME]. cbn [observe].
    destruct (target k session i) as [d|] eqn:TG; [|exact SAME]. apply OTHER. intros ->. cbn [quiet] in Q. specialize (Q TG). discriminate.
  - cbn [observe]. destruct (mismatched k session || (session && (n <=? i))); [exact SAME|]. cbn [quiet] in Q. destruct Q as [KV TN].
    destruct k; [congruence| | | |exact SAME]; cbn [target] in *; apply OTHER; congruence.
  - cbn [observe]. destruct (n <=? i); [exact SAME|]. cbn [quiet] in Q. destruct Q as [Q1 Q2]. split; [unfold env_same; cbn; auto|].
    rewrite longer_nil, !set_tr_other by congruence. reflexivity.
  - destruct Q.
Qed.

Lemma longer_longer : forall w w' c a m1 m2, env_same w w' -> w_tr w' c = longer w c a m1 -> longer w' c a m2 = longer w c a (m1 ++ m2).
Proof.
  intros w w' c a m1 m2 (E1 & E2 & E3) T. unfold longer at 1. rewrite T, E2, E3. unfold longer. destruct (w_tr w c).
  - destruct m1 as [|x m1]; [cbn [app]; reflexivity|]. cbn [app]. rewrite <- app_assoc. reflexivity.
  - rewrite app_assoc. reflexivity.
  - reflexivity.
Qed.

Lemma quiet_views : forall n c es w a, Forall (quiet n c) es -> w_algo w = Some a ->
  w_tr (views n w es) c = longer w c a (messages c es) /\ env_same w (views n w es).
Proof.
  intros n c. induction es as [|e es IH]; intros w a F A.
  - cbn [messages]. rewrite longer_nil. split; [reflexivity|]. unfold env_same. auto.
  - inversion F as [|? ? Q F']; subst. destruct (quiet_step n c e w a Q A) as (E & T). pose proof E as (E1 & E2 & E3).
    change (views n w (e :: es)) with (views n (observe n w e) es).
    destruct (IH (observe n w e) a F' ltac:(congruence)) as (T' & X1 & X2 & X3).
    rewrite T', messages_cons. split; [apply longer_longer; assumption|]. unfold env_same. rewrite X1, X2, X3. auto.
Qed.

(** ** Too few engines *)
Section Few.
Variables MAXS VCAMAX : nat.
Variable HASH : N -> list N -> list N.

Definition Stuck (s : state) : Prop :=
  s_m s = HCtx 0 false /\ h_idx (s_l s) = 1 /\ s_count s = 0 /\ (exists x, nth_error (s_eng s) 0 = Some (Some x)) /\
  Forall (fun p => h_idx (fst p) = 0 /\ h_idx (snd p) = 0) (s_sess s).

Lemma stuck_eng : forall s i e, Stuck s -> (i = 0 -> e <> None) -> Stuck (set_eng s (upd (s_eng s) i e)).
Proof.
  intros s i e (A & B & C & (x & D) & E) N. unfold Stuck. cbn [set_eng s_m s_l s_count s_eng s_sess]. do 3 (split; [assumption|]).
  split; [|exact E]. assert (L : 0 < length (s_eng s)) by (apply nth_error_Some; rewrite D; discriminate).
  destruct i as [|i].
  - rewrite nth_error_upd_eq by exact L. destruct e as [y|]; [exists y; reflexivity|]. destruct (N eq_refl); reflexivity.
  - rewrite nth_error_upd_neq by lia. exists x. exact D.
Qed.
Lemma stuck_on : forall s i f s' ok, Stuck s -> (forall x, i = 0 -> snd (f (Some x)) <> None) -> on_engine s i f = Some (s', ok) -> Stuck s'.
Proof.
  intros s i f s' ok H F R. unfold on_engine in R. destruct (nth_error (s_eng s) i) as [e|] eqn:E; [|discriminate].
  destruct (f e) as [k e'] eqn:FE. injection R as <- <-. apply stuck_eng; [exact H|]. intros ->.
  destruct H as (_ & _ & _ & (x & D) & _). rewrite D in E. injection E as <-. specialize (F x eq_refl). rewrite FE in F. exact F.
Qed.
Lemma stuck_put : forall s c h, Stuck s -> c <> CM1M2 -> (exists h0, ctx_of s c = Some h0 /\ h_idx h = h_idx h0) -> Stuck (put_ctx s c h).
Proof.
  intros s c h (A & B & C & D & E) N (h0 & X & I). destruct c as [| |i|i]; [congruence| | |]; cbn [put_ctx ctx_of] in *.
  - injection X as <-. unfold Stuck. cbn [set_l s_m s_l s_count s_eng s_sess]. rewrite I. auto 6.
  - destruct (nth_error (s_sess s) i) as [[t l]|] eqn:NE; [|discriminate]. cbn in X. injection X as <-.
    unfold Stuck. cbn [set_sess s_m s_l s_count s_eng s_sess]. do 4 (split; [assumption|]).
    apply Forall_upd; [exact E|]. pose proof (proj1 (Forall_forall _ _) E _ (nth_error_In _ _ NE)) as [P1 P2]. cbn [fst snd] in *. rewrite I. auto.
  - destruct (nth_error (s_sess s) i) as [[t l]|] eqn:NE; [|discriminate]. cbn in X. injection X as <-.
    unfold Stuck. cbn [set_sess s_m s_l s_count s_eng s_sess]. do 4 (split; [assumption|]).
    apply Forall_upd; [exact E|]. pose proof (proj1 (Forall_forall _ _) E _ (nth_error_In _ _ NE)) as [P1 P2]. cbn [fst snd] in *. rewrite I. auto.
Qed.
Lemma on_engine_ctx : forall s i f s' ok c, on_engine s i f = Some (s', ok) -> ctx_of s' c = ctx_of s c.
Proof.
  intros s i f s' ok c R. unfold on_engine in R. destruct (nth_error (s_eng s) i) as [e|]; [|discriminate]. destruct (f e) as [k e'].
  injection R as <- <-. apply ctx_of_eng.
Qed.
Lemma upd_keeps : forall m j x, snd (eng_update m j (Some x)) <> None.
Proof. intros m j [a b]. destruct j; discriminate. Qed.
Lemma start_keeps : forall al k x, snd (eng_start al k (Some x)) <> None.
Proof. intros [a|] k x; discriminate. Qed.

Lemma stuck_add : forall s c msg av f s' ok, Stuck s -> add_msg s c msg av f = Some (s', ok) -> Stuck s' /\ (c = CM1M2 -> ok = false).
Proof.
  intros s c msg av f s' ok H R. unfold add_msg in R. destruct (ctx_of s c) as [h|] eqn:X; [|discriminate].
  assert (ST : c = CM1M2 -> h = HCtx 0 false) by (intros ->; cbn in X; injection X as <-; apply H).
  destruct (h_started h) eqn:HS.
  { split; [eapply stuck_on; [exact H| |exact R]; intros; apply upd_keeps|]. intros E. rewrite (ST E) in HS. discriminate. }
  destruct (on_engine s (h_idx h) (eng_start (s_algo s) (f_start f))) as [[s1 [|]]|] eqn:R1; [| |discriminate].
  2:{ injection R as <- <-. split; [eapply stuck_on; [exact H| |exact R1]; intros; apply start_keeps|reflexivity]. }
  assert (H1 : Stuck s1) by (eapply stuck_on; [exact H| |exact R1]; intros; apply start_keeps).
  assert (NC : c <> CM1M2).
  { intros E. rewrite (ST E) in R1. destruct H as (_ & _ & _ & (x & D) & _). unfold on_engine in R1. cbn [h_idx] in R1. rewrite D in R1.
    unfold eng_start in R1. destruct (s_algo s); discriminate. }
  split; [|intros E; contradiction].
  assert (H2 : Stuck (put_ctx s1 c (HCtx (h_idx h) true))).
  { apply stuck_put; [exact H1|exact NC|]. exists h. rewrite (on_engine_ctx _ _ _ _ _ c R1). auto. }
  destruct av.
  - destruct (on_engine (put_ctx s1 c (HCtx (h_idx h) true)) _ _) as [[s3 [|]]|] eqn:R3; [| |discriminate].
    + assert (H3 : Stuck s3) by (eapply stuck_on; [exact H2| |exact R3]; intros; apply upd_keeps).
      eapply stuck_on; [exact H3| |exact R]; intros; apply upd_keeps.
    + injection R as <- <-. eapply stuck_on; [exact H2| |exact R3]; intros; apply upd_keeps.
  - eapply stuck_on; [exact H2| |exact R]; intros; apply upd_keeps.
Qed.

Lemma stuck_reset : forall s c s', Stuck s -> c = CM1M2 \/ c = CL1L2 -> reset_ctx s c = Some s' -> Stuck s'.
Proof.
  intros s c s' H [-> | ->] R; unfold reset_ctx in R; cbn [ctx_of] in R.
  - destruct H as (A & H). rewrite A in R. cbn in R. injection R as <-. split; assumption.
  - destruct (h_started (s_l s)); [|injection R as <-; exact H]. pose proof H as (_ & IL & _).
    destruct (on_engine s (h_idx (s_l s)) _) as [[s1 k]|] eqn:R1; [|discriminate]. injection R as <-.
    apply (stuck_put s1 CL1L2); [|discriminate|].
    + eapply stuck_on; [exact H| |exact R1]. intros x E. rewrite IL in E. discriminate.
    + exists (s_l s). rewrite (on_engine_ctx _ _ _ _ _ CL1L2 R1). auto.
Qed.

Lemma stuck_field : forall s s', Stuck s -> s_m s' = s_m s -> s_l s' = s_l s -> s_count s' = s_count s -> s_eng s' = s_eng s -> s_sess s' = s_sess s ->
  Stuck s'.
Proof. intros s s' H E1 E2 E3 E4 E5. unfold Stuck. rewrite E1, E2, E3, E4, E5. exact H. Qed.

Lemma stuck_step : forall s o s' r, Stuck s -> step MAXS VCAMAX HASH s o = Some (s', r) ->
  Stuck s' /\ (forall msg session i f, o = Update KM1M2 msg session i f -> r = RErr) /\
  (forall fin session i g, o = GetHash KM1M2 fin session i g -> r = RErr).
Proof.
  intros s o s' r H R. pose proof H as (A & B & C & (x & D) & E).
  destruct o as [[a|]|v|k msg session i f|k fin session i g|k session i|i|]; cbn [step] in R.
  - split; [|split; discriminate]. destruct (s_algo s); injection R as <- <-; [exact H|]. apply (stuck_field s); auto.
  - injection R as <- <-. split; [exact H|split; discriminate].
  - injection R as <- <-. split; [apply (stuck_field s); auto|split; discriminate].
  - destruct (update MAXS VCAMAX s k msg session i f) as [[s1 ok]|] eqn:U; [|discriminate]. injection R as <- <-.
    unfold update in U. destruct (length msg =? 0).
    { injection U as <- <-. split; [exact H|]. split; [reflexivity|discriminate]. }
    destruct k.
    + split; [|split; discriminate]. destruct (_ <? _); injection U as <- <-; [exact H|]. apply (stuck_field s); auto.
    + apply stuck_add in U as [U1 U2]; [|exact H]. split; [exact U1|]. split; [rewrite U2 by reflexivity; reflexivity|discriminate].
    + split; [|split; discriminate]. destruct (session && (MAXS <=? i)); [injection U as <- <-; exact H|]. apply stuck_add in U as [U1 U2]; [exact U1|exact H].
    + split; [|split; discriminate]. destruct (session && (MAXS <=? i)); [injection U as <- <-; exact H|]. apply stuck_add in U as [U1 U2]; [exact U1|exact H].
    + injection U as <- <-. split; [exact H|]. split; discriminate.
  - unfold get_hash in R. rewrite C in R. replace (0 <=? i) with true in R by reflexivity.
    change (match k with KM1M2 => session | KTh => negb session | _ => false end) with (mismatched k session) in R.
    destruct (mismatched k session) eqn:M.
    { injection R as <- <-. split; [exact H|]. split; [discriminate|reflexivity]. }
    destruct session; cbn [andb] in R.
    { injection R as <- <-. split; [exact H|]. split; [discriminate|reflexivity]. }
    destruct k; cbn in M; try discriminate.
    + injection R as <- <-. split; [exact H|]. split; discriminate.
    + cbn [ctx_of] in R. rewrite A in R. cbn in R. injection R as <- <-. split; [exact H|]. split; [discriminate|reflexivity].
    + cbn [ctx_of] in R. split; [|split; discriminate]. destruct (h_started (s_l s)); cbn [negb] in R; [|injection R as <- <-; exact H].
      destruct (nth_error (s_eng s) (h_idx (s_l s))) as [[[a b]|]|]; [|injection R as <- <-; exact H|discriminate].
      destruct (negb g); [injection R as <- <-; exact H|]. destruct fin; injection R as <- <-; [|exact H].
      apply (stuck_put _ CL1L2); [|discriminate|].
      * apply stuck_eng; [exact H|]. intros Z. rewrite B in Z. discriminate.
      * exists (s_l s). split; [apply ctx_of_eng|reflexivity].
    + injection R as <- <-. split; [exact H|]. split; discriminate.
  - split; [|split; discriminate]. destruct (reset_context s k session i) as [s1|] eqn:RC; [|discriminate]. injection R as <- <-.
    unfold reset_context in RC. rewrite C in RC. replace (0 <=? i) with true in RC by reflexivity.
    change (match k with KM1M2 => session | KTh => negb session | _ => false end) with (mismatched k session) in RC.
    destruct (mismatched k session) eqn:M; [injection RC as <-; exact H|]. destruct session; cbn [andb] in RC; [injection RC as <-; exact H|].
    destruct k; cbn in M; try discriminate.
    + injection RC as <-. apply (stuck_field s); auto.
    + eapply stuck_reset; [exact H| |exact RC]. auto.
    + eapply stuck_reset; [exact H| |exact RC]. auto.
    + injection RC as <-. exact H.
  - split; [|split; discriminate]. unfold reset_session in R. rewrite C in R. replace (0 <=? i) with true in R by reflexivity. cbn in R.
    injection R as <- <-. exact H.
  - split; [|split; discriminate]. destruct (reset_all s) as [s1|] eqn:RA; [|discriminate]. injection R as <- <-. unfold reset_all in RA.
    assert (H0 : Stuck (set_vca (set_algo s None) [])) by (apply (stuck_field s); auto).
    destruct (reset_ctx (set_vca (set_algo s None) []) CM1M2) as [s2|] eqn:R2; [|discriminate].
    apply stuck_reset in R2; [|exact H0|auto]. destruct (reset_ctx s2 CL1L2) as [s3|] eqn:R3; [|discriminate].
    apply stuck_reset in R3; [|exact R2|auto]. pose proof R3 as (_ & _ & C3 & _). rewrite C3 in RA. cbn in RA. injection RA as <-. exact R3.
Qed.

Lemma stuck_run : forall l s s' es, Stuck s -> run MAXS VCAMAX HASH s l = Some (s', es) ->
  forall o r, In (o, r) es -> (forall msg session i f, o = Update KM1M2 msg session i f -> r = RErr) /\
    (forall fin session i g, o = GetHash KM1M2 fin session i g -> r = RErr).
Proof.
  induction l as [|o l IH]; intros s s' es H R; cbn [run] in R.
  - injection R as <- <-. intros o r [].
  - destruct (step MAXS VCAMAX HASH s o) as [[s1 r1]|] eqn:ST; [|discriminate].
    destruct (run MAXS VCAMAX HASH s1 l) as [[s2 es2]|] eqn:RR; [|discriminate]. injection R as <- <-.
    apply stuck_step in ST as (H1 & ST1); [|exact H]. intros o' r' [E|HI]; [injection E as <- <-; exact ST1|]. eapply IH; eauto.
Qed.
End Few.
