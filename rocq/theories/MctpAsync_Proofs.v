(** Proofs about late MCTP responses. *)
From Coq Require Import List NArith ZArith Lia Bool Arith.
From Verif Require Import Base FlashStore_Layout_Proofs Mctp_Model MctpAsync_Model Mctp_Receive_Proofs.
Import ListNotations.
Local Open Scope nat_scope.

Lemma arun_app : forall l1 l2 s, arun s (l1 ++ l2) =
  match arun s l1 with
  | None => None
  | Some (s1, e1) => match arun s1 l2 with None => None | Some (s2, e2) => Some (s2, e1 ++ e2) end
  end.
Proof.
  induction l1 as [|x l1 IH]; intros l2 s; cbn [app arun].
  - destruct (arun s l2) as [[s2 e2]|]; auto.
  - destruct (astep s x) as [[s1 e]|]; auto. rewrite IH. destruct (arun s1 l1) as [[s2 e2]|]; auto.
    destruct (arun s2 l2) as [[s3 e3]|]; auto.
Qed.

Lemma length_arun : forall l s s' es, arun s l = Some (s', es) -> length es = length l.
Proof.
  induction l as [|x l IH]; intros s s' es H; cbn [arun] in H; [injection H as <- <-; auto|].
  destruct (astep s x) as [[s1 e]|]; [|discriminate]. destruct (arun s1 l) as [[s2 e2]|] eqn:E; [|discriminate].
  injection H as <- <-. cbn. f_equal. eauto.
Qed.

Lemma arun_snoc : forall l x s s' es, arun s (l ++ [x]) = Some (s', es) ->
  exists s1 es1 e, arun s l = Some (s1, es1) /\ astep s1 x = Some (s', e) /\ es = es1 ++ [e].
Proof.
  intros l x s s' es H. rewrite arun_app in H. destruct (arun s l) as [[s1 es1]|]; [|discriminate].
  cbn [arun] in H. destruct (astep s1 x) as [[s2 e]|] eqn:E; [|discriminate]. injection H as <- <-. eauto 6.
Qed.

Record ainv (s : astate) (es : list aevent) : Prop := {
  ai_count : forall i ph, a_req s = Some (i, ph) -> i < a_count s;
  ai_returned : forall i, In (Returned i) es -> i < a_count s /\ forall j ph, a_req s = Some (j, ph) -> j <> i;
  ai_msg : forall i, a_msg s = Some i -> exists ph, a_req s = Some (i, ph) /\ ph <> Locked;
  ai_waiting : a_rsp s = RspWaiting ->
    exists i, a_msg s = Some i /\ In (Registered i (a_tag s)) es /\ (a_req s = Some (i, Sending true) \/ a_req s = Some (i, Waiting))
}.

Lemma ainv_frame : forall s es s' e, ainv s es -> a_req s' = a_req s -> a_msg s' = a_msg s -> a_count s' = a_count s ->
  a_tag s' = a_tag s -> (a_rsp s' = RspWaiting -> a_rsp s = RspWaiting) -> (forall i, e <> Returned i) -> ainv s' (es ++ [e]).
Proof.
  intros s es s' e [C R M W] H1 H2 H3 H4 H5 H6. constructor; rewrite ?H1, ?H2, ?H3, ?H4; auto.
  - intros i Hi. apply in_app_or in Hi. destruct Hi as [Hi|[Hi|[]]]; [auto|]. now apply H6 in Hi.
  - intros Hw. destruct (W (H5 Hw)) as (i & W1 & W2 & W3). exists i. splits; auto. apply in_or_app. auto.
Qed.

Lemma ainv_move : forall s es s' i ph ph' e, ainv s es -> a_req s = Some (i, ph) -> a_req s' = Some (i, ph') -> ph' <> Locked ->
  a_msg s' = a_msg s -> a_count s' = a_count s ->
  a_tag s' = a_tag s -> (a_rsp s' = RspWaiting -> a_rsp s = RspWaiting /\ (ph = Sending true -> ph' = Waiting) /\ ph <> Waiting) ->
  (forall i, e <> Returned i) -> ainv s' (es ++ [e]).
Proof.
  intros s es s' i ph ph' e [C R M W] H0 H1 HL H2 H3 H4 H5 H6. constructor; rewrite ?H1, ?H2, ?H3, ?H4.
  - intros j p Hj. injection Hj as <- <-. eauto.
  - intros j Hj. apply in_app_or in Hj. destruct Hj as [Hj|[Hj|[]]]; [|now apply H6 in Hj].
    destruct (R j Hj) as (R1 & R2). split; auto. intros j' p Hp. injection Hp as <- <-. eauto.
  - intros j Hj. destruct (M j Hj) as (p & M1 & M2). rewrite H0 in M1. injection M1 as <- <-. eauto.
  - intros Hw. destruct (H5 Hw) as (W0 & W1 & W2). destruct (W W0) as (j & A & B & D). rewrite H0 in D. exists j. splits; auto.
    + apply in_or_app. auto.
    + right. destruct D as [D|D]; injection D as <- ->; [rewrite W1; auto|contradiction].
Qed.

Lemma ainv_step : forall s es l s' e, ainv s es -> astep s l = Some (s', e) -> ainv s' (es ++ [e]).
Proof.
  intros s es l s' e I H. unfold astep in H.
  destruct l as [| |wait| | | | |t| |fits].
  - (* Begin *) destruct (a_req s) as [[i ph]|] eqn:ER; [discriminate|]. injection H as <- <-. destruct I as [C R M W].
    constructor; cbn [a_rsp a_tag a_next a_msg a_req a_count a_rx].
    + intros i ph Hi. injection Hi as <- <-. lia.
    + intros j Hj. apply in_app_or in Hj. destruct Hj as [Hj|[Hj|[]]]; [|discriminate]. destruct (R j Hj) as (R1 & R2). split; [lia|].
      intros j' p Hp. injection Hp as <- <-. lia.
    + intros j Hj. destruct (M j Hj) as (p & M1 & M2). congruence.
    + intros Hw. destruct (W Hw) as (j & A & B & [D|D]); congruence.
  - (* BuildFails *) destruct (a_req s) as [[i [|w| |]]|] eqn:ER; try discriminate. injection H as <- <-.
    eapply ainv_move; eauto; cbn [set_a a_rsp a_tag a_next a_msg a_req a_count a_rx]; auto; try discriminate.
    intros Hw. destruct (ai_waiting _ _ I Hw) as (j & A & B & [D|D]); congruence.
  - (* Register *) destruct (a_req s) as [[i [|w| |]]|] eqn:ER; try discriminate. injection H as <- <-. destruct I as [C R M W].
    constructor; cbn [a_rsp a_tag a_next a_msg a_req a_count a_rx].
    + intros j ph Hi. injection Hi as <- <-. eauto.
    + intros j Hj. apply in_app_or in Hj. destruct Hj as [Hj|[Hj|[]]]; [|discriminate]. destruct (R j Hj) as (R1 & R2). split; auto.
      intros j' p Hp. injection Hp as <- <-. eauto.
    + intros j Hj. destruct wait; [|discriminate]. injection Hj as <-. eexists. split; [reflexivity|discriminate].
    + intros Hw. destruct wait; [|discriminate]. exists i. splits; auto. apply in_or_app. right. now left.
  - (* SendFails *) destruct (a_req s) as [[i [|w| |]]|] eqn:ER; try discriminate. injection H as <- <-.
    eapply ainv_move; eauto; cbn [set_a a_rsp a_tag a_next a_msg a_req a_count a_rx]; auto; discriminate.
  - (* Sent *) destruct (a_req s) as [[i [|w| |]]|] eqn:ER; try discriminate. destruct w; injection H as <- <-;
    (eapply ainv_move; eauto; cbn [set_a a_rsp a_tag a_next a_msg a_req a_count a_rx]; auto; try discriminate);
    intros Hw; destruct (ai_waiting _ _ I Hw) as (j & A & B & [D|D]); try congruence; splits; auto; discriminate.
  - (* WakeUp *) destruct (a_req s) as [[i [|w| |]]|] eqn:ER; try discriminate. injection H as <- <-.
    eapply ainv_move; eauto; cbn [set_a a_rsp a_tag a_next a_msg a_req a_count a_rx]; auto; discriminate.
  - (* Return *) destruct (a_req s) as [[i [|w| |]]|] eqn:ER; try discriminate. injection H as <- <-. destruct I as [C R M W].
    constructor; cbn [set_a a_rsp a_tag a_next a_msg a_req a_count a_rx]; try discriminate.
    + intros j Hj. apply in_app_or in Hj. split; [|discriminate]. destruct Hj as [Hj|[Hj|[]]]; [now apply R|]. injection Hj as <-. eauto.
    + intros Hw. destruct (W Hw) as (j & A & B & [D|D]); congruence.
  - (* Check *) assert (E: a_req s' = a_req s /\ a_msg s' = a_msg s /\ a_count s' = a_count s /\ a_tag s' = a_tag s /\
      (a_rsp s' = RspWaiting -> a_rsp s = RspWaiting) /\ forall i, e <> Returned i).
    { destruct (a_req s) as [[i ph]|] eqn:ER, (a_rx s); try discriminate;
      destruct (_ && _) in H; injection H as <- <-; splits; auto; discriminate. }
    destruct E as (E1 & E2 & E3 & E4 & E5 & E6). now apply (ainv_frame s).
  - (* RxDone *) assert (E: a_req s' = a_req s /\ a_msg s' = a_msg s /\ a_count s' = a_count s /\ a_tag s' = a_tag s /\
      (a_rsp s' = RspWaiting -> a_rsp s = RspWaiting) /\ forall i, e <> Returned i).
    { destruct (a_req s) as [[i ph]|] eqn:ER, (a_rx s); try discriminate; injection H as <- <-; splits; auto; discriminate. }
    destruct E as (E1 & E2 & E3 & E4 & E5 & E6). now apply (ainv_frame s).
  - (* Handle *) assert (E: a_req s' = a_req s /\ a_msg s' = a_msg s /\ a_count s' = a_count s /\ a_tag s' = a_tag s /\
      (a_rsp s' = RspWaiting -> a_rsp s = RspWaiting) /\ forall i, e <> Returned i).
    { destruct (a_req s) as [[i ph]|] eqn:ER, (a_rx s); try discriminate;
      destruct (a_rsp s) eqn:EP; try (injection H as <- <-; splits; auto; discriminate);
      destruct (a_msg s) eqn:EM; try (destruct fits); injection H as <- <-; splits; auto; discriminate. }
    destruct E as (E1 & E2 & E3 & E4 & E5 & E6). now apply (ainv_frame s).
Qed.

Lemma ainv_run : forall l s es, arun ainit l = Some (s, es) -> ainv s es.
Proof.
  induction l as [|x l IH] using rev_ind; intros s es H.
  - injection H as <- <-. constructor; cbn; try discriminate. contradiction.
  - apply arun_snoc in H. destruct H as (s1 & es1 & e & H1 & H2 & ->). eapply ainv_step; eauto.
Qed.

Lemma arun_at : forall l s s' es k e, arun s l = Some (s', es) -> nth_error es k = Some e ->
  exists x s1 s2, nth_error l k = Some x /\ arun s (firstn k l) = Some (s1, firstn k es) /\ astep s1 x = Some (s2, e).
Proof.
  induction l as [|x l IH] using rev_ind; intros s s' es k e H He.
  - injection H as <- <-. destruct k; discriminate.
  - apply arun_snoc in H. destruct H as (s1 & es1 & e1 & H1 & H2 & ->). pose proof (length_arun _ _ _ _ H1) as L.
    apply nth_error_snoc in He. destruct He as [(Lk & He)|(Lk & ->)].
    + destruct (IH s s1 es1 k e H1 He) as (y & s2 & s3 & A & B & D). exists y, s2, s3. rewrite !firstn_app_le by lia. splits; auto.
      rewrite nth_error_app1 by lia. auto.
    + exists x, s1, s'. subst k. splits; auto.
      * rewrite nth_error_app2 by lia. rewrite L, Nat.sub_diag. auto.
      * rewrite !firstn_app_le by lia. rewrite firstn_all, L, firstn_all. auto.
Qed.

Lemma write_in_progress : forall s x s' i t e, e = Wrote i t \/ e = TooBigFor i t -> astep s x = Some (s', e) ->
  exists f, x = Handle f /\ a_msg s = Some i /\ a_rx s = Some t /\ a_rsp s <> RspPending.
Proof.
  intros s x s' i t e He H. unfold astep in H.
  destruct x as [| |wait| | | | |t0| |fits]; destruct (a_req s) as [[j [|[]| |]]|]; destruct (a_rx s) as [t1|]; try discriminate;
    try (injection H as <- <-; destruct He; discriminate);
    try (destruct (_ && _); injection H as <- <-; destruct He; discriminate);
    (destruct (a_rsp s); try (injection H as <- <-; destruct He; discriminate);
     (destruct (a_msg s) as [m|]; [|injection H as <- <-; destruct He; discriminate]);
     destruct fits; injection H as <- <-; destruct He as [He|He]; try discriminate; injection He as -> ->;
     eexists; splits; eauto; discriminate).
Qed.

Lemma returned_untouched : forall l s es i n k e, arun ainit l = Some (s, es) ->
  nth_error es n = Some (Returned i) -> n < k -> nth_error es k = Some e ->
  forall t, e <> Wrote i t /\ e <> TooBigFor i t.
Proof.
  intros l s es i n k e H Hn Hk He t. destruct (arun_at _ _ _ _ _ _ H He) as (x & s1 & s2 & A & B & D).
  pose proof (ainv_run _ _ _ B) as I.
  assert (IR: In (Returned i) (firstn k es)).
  { apply nth_error_In with n. rewrite <- Hn. rewrite <- (firstn_skipn k es) at 2. symmetry. apply nth_error_app1. rewrite firstn_length.
    assert (k < length es) by (apply nth_error_Some; congruence). lia. }
  assert (X: ~ (e = Wrote i t \/ e = TooBigFor i t)); [|tauto]. intros C.
  destruct (write_in_progress _ _ _ _ _ _ C D) as (f & _ & M & _).
  destruct (ai_msg _ _ I i M) as (ph & P & _). destruct (ai_returned _ _ I i IR) as (_ & R). now apply (R i ph P).
Qed.

Lemma late_dropped : forall l s es t s' e, arun ainit l = Some (s, es) ->
  a_req s = None -> a_rsp s <> RspPending -> astep s (Check t) = Some (s', e) -> s' = s /\ e = Nothing.
Proof.
  intros l s es t s' e H R P S. pose proof (ainv_run _ _ _ H) as I. unfold astep in S. rewrite R in S.
  destruct (a_rx s); [discriminate|].
  assert (W: a_rsp s <> RspWaiting). { intros W. destruct (ai_waiting _ _ I W) as (i & _ & _ & [D|D]); congruence. }
  destruct (a_rsp s); try contradiction; cbn [andb] in S; injection S as <- <-; auto.
Qed.

Lemma adjacent_safe : forall l s es, (forall n f, nth_error l (S n) = Some (Handle f) -> exists t, nth_error l n = Some (Check t)) ->
  arun ainit l = Some (s, es) -> forall n e, nth_error es n = Some e ->
  e <> NullDereference /\
  forall i t, e = Wrote i t \/ e = TooBigFor i t -> In (Registered i t) (firstn n es) /\ ~ In (Returned i) (firstn n es).
Proof.
  intros l s es A H n e He. destruct (arun_at _ _ _ _ _ _ H He) as (x & s1 & s2 & X1 & X2 & X3).
  assert (NH: (forall f, x <> Handle f) -> e <> NullDereference /\ forall i t, e = Wrote i t \/ e = TooBigFor i t -> False).
  { intros NX. split.
    - intros ->. unfold astep in X3. destruct x; destruct (a_req s1) as [[j [|[]| |]]|]; destruct (a_rx s1); try discriminate;
        try (destruct (_ && _); discriminate); now apply (NX fits).
    - intros i t C. destruct (write_in_progress _ _ _ _ _ _ C X3) as (f & -> & _). now apply (NX f). }
  destruct x as [| |wait| | | | |t0| |fits]; try (destruct NH as (N1 & N2); [discriminate|]; split; auto; intros i t C; destruct (N2 i t C)).
  destruct n as [|n].
  { cbn [firstn arun] in X2. injection X2 as <-. discriminate. }
  destruct (A n fits X1) as (t & At).
  assert (Hn: exists e0, nth_error es n = Some e0).
  { destruct (nth_error es n) eqn:E0; eauto. apply nth_error_None in E0. assert (S n < length es) by (apply nth_error_Some; congruence). lia. }
  destruct Hn as (e0 & He0). destruct (arun_at _ _ _ _ _ _ H He0) as (y & s3 & s4 & Y1 & Y2 & Y3).
  assert (y = Check t) by congruence. subst y.
  assert (F: forall (T : Type) (q : list T) z, nth_error q n = Some z -> firstn (S n) q = firstn n q ++ [z]).
  { intros T q z Hz. clear - Hz. revert q Hz. induction n as [|n IH]; intros q Hz; destruct q; try discriminate; cbn in *.
    - now injection Hz as ->.
    - f_equal. auto. }
  assert (s4 = s1).
  { rewrite (F _ l _ Y1), (F _ es _ He0) in X2. rewrite arun_app, Y2 in X2. cbn [arun] in X2. rewrite Y3 in X2. now injection X2 as <-. }
  subst s4. pose proof (ainv_run _ _ _ Y2) as I. pose proof (ainv_run _ _ _ X2) as I1.
  unfold astep in Y3, X3.
  assert (Z: a_rx s3 = None) by (destruct (a_req s3) as [[? [|? | |]]|], (a_rx s3); auto; discriminate).
  assert (Y: (if (match a_rsp s3 with RspWaiting | RspPending => true | _ => false end) && (t =? a_tag s3)%N
              then Some (set_a s3 (a_rsp s3) (a_msg s3) (a_req s3) (Some t), Accepted t) else Some (s3, Nothing)) = Some (s1, e0)).
  { rewrite <- Y3, Z. destruct (a_req s3) as [[? [|? | |]]|]; reflexivity. }
  clear Y3. destruct ((match a_rsp s3 with RspWaiting | RspPending => true | _ => false end) && (t =? a_tag s3)%N) eqn:EB.
  2:{ injection Y as -> _. exfalso. rewrite Z in X3. destruct (a_req s1) as [[? [|? | |]]|]; discriminate. }
  apply andb_prop in EB. destruct EB as (EB1 & EB2). apply N.eqb_eq in EB2. injection Y as <- <-.
  cbn [set_a a_rsp a_tag a_next a_msg a_req a_count a_rx] in X3.
  destruct (a_rsp s3) eqn:ER; try discriminate.
  - destruct (ai_waiting _ _ I ER) as (i & W1 & W2 & W3).
    assert (E: e = if fits then Wrote i t else TooBigFor i t).
    { rewrite W1 in X3. destruct W3 as [W3|W3]; rewrite W3 in X3; destruct fits; injection X3 as _ <-; auto. }
    split; [subst e; destruct fits; discriminate|]. intros i' t' C.
    assert (i' = i /\ t' = t) as (-> & ->) by (subst e; destruct fits, C as [C|C]; try discriminate; injection C as <- <-; auto).
    split; [rewrite (F _ es _ He0), EB2; apply in_or_app; auto|]. intros IR.
    destruct (ai_returned _ _ I1 i IR) as (_ & R2). cbn [set_a a_req] in R2.
    destruct W3 as [W3|W3]; eapply R2; eauto.
  - assert (e = Nothing) by (destruct (a_req s3) as [[? [|? | |]]|]; now injection X3). subst e. split; [discriminate|]. intros ? ? [C|C]; discriminate.
Qed.
