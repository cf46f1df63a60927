(** Proofs about MCTP: assembling messages. *)
From Coq Require Import List NArith ZArith Lia Bool Arith ZifyBool ZifyNat ZifyN.
From Verif Require Import Base Crc8_Model FlashStore_Layout_Proofs KeyWrap_Proofs Mctp_Model Mctp_Spec Mctp_Proofs Mctp_Send_Proofs.
Import ListNotations.
Local Open Scope nat_scope.

Lemma nth_error_snoc : forall (A : Type) (l : list A) x i y, nth_error (l ++ [x]) i = Some y ->
  (i < length l /\ nth_error l i = Some y) \/ (i = length l /\ y = x).
Proof.
  intros A l x i y H. destruct (Nat.lt_ge_cases i (length l)).
  - left. rewrite nth_error_app1 in H by auto. auto.
  - right. rewrite nth_error_app2 in H by auto. destruct (i - length l) as [|k] eqn:E.
    + cbn in H. injection H as <-. split; auto. lia.
    + cbn in H. destruct k; discriminate.
Qed.

(** * Histories *)
Section History.
Variables (self : N) (supp : N -> bool).

Lemma op_run_app : forall l1 l2 s,
  op_run self supp s (l1 ++ l2) =
  let '(s1, e1) := op_run self supp s l1 in let '(s2, e2) := op_run self supp s1 l2 in (s2, e1 ++ e2).
Proof.
  induction l1 as [|o l1 IH]; intros l2 s.
  - cbn [app op_run]. destruct (op_run self supp s l2); reflexivity.
  - cbn [app op_run]. destruct (op_step self supp s o) as [s1 e]. rewrite IH.
    destruct (op_run self supp s1 l1) as [s2 es]. destruct (op_run self supp s2 l2); reflexivity.
Qed.

Lemma length_op_run : forall l s, length (snd (op_run self supp s l)) = length l.
Proof.
  induction l as [|o l IH]; intros s; auto. cbn [op_run]. destruct (op_step self supp s o) as [s1 e].
  specialize (IH s1). destruct (op_run self supp s1 l). cbn [snd length] in *. lia.
Qed.

Fixpoint after (x : expectation) (l : list op) : expectation :=
  match l with
  | [] => x
  | Rx _ _ :: l => after x l
  | Expect st tag ty _ :: l => after (st, tag, ty) l
  end.

Lemma after_app : forall l1 l2 x, after x (l1 ++ l2) = after (after x l1) l2.
Proof. induction l1 as [|[] l1 IH]; intros; cbn; auto. Qed.

Lemma interleaved_take : forall t x frs l buf addr p, interleaved self supp t x frs l ->
  interpret buf addr = inl p -> p_dest_eid p = self \/ p_dest_eid p = NULL_EID ->
  interleaved self supp t x (frs ++ [p]) (l ++ [Rx buf addr]).
Proof. intros t x frs l buf addr p H. induction H; intros; cbn [app]; econstructor; eauto; constructor. Qed.

Lemma interleaved_skip : forall t x frs l buf addr, interleaved self supp t x frs l -> foreign self supp (after x l) t buf addr ->
  interleaved self supp t x frs (l ++ [Rx buf addr]).
Proof. intros t x frs l buf addr H. induction H; intros; cbn [app after] in *; try (econstructor; eauto; fail). constructor; auto. constructor. Qed.

Lemma interleaved_expect : forall t x frs l st tag ty mx, interleaved self supp t x frs l ->
  interleaved self supp t x frs (l ++ [Expect st tag ty mx]).
Proof. intros t x frs l st tag ty mx H. induction H; intros; cbn [app]; try (econstructor; eauto; fail). constructor; auto. constructor. Qed.

Lemma not_awaited : forall s p, is_expected_response s (p_tag p) (p_som p) (p_type p) = false -> ~ awaited (expecting s) p.
Proof.
  intros s p H (A & B & C). unfold is_expected_response in H. rewrite B, N.eqb_refl in H.
  destruct (p_som p); cbn [andb negb] in H.
  - rewrite C, N.eqb_refl in H by auto. destruct A as [A|A]; rewrite A in H; discriminate.
  - destruct A as [A|A]; rewrite A in H; discriminate.
Qed.

(** The part of a message received so far. *)
Record partial (frs : list packet) (s : mctp) : Prop := {
  pt_start : exists p0 rest, frs = p0 :: rest /\ p_som p0 = true /\ Forall (fun p => p_som p = false) rest;
  pt_terminus : Forall (fun p => terminus p = (m_src_eid s, m_tag s, m_owner s)) frs;
  pt_sequence : forall i p q, nth_error frs i = Some p -> nth_error frs (S i) = Some q -> p_seq q = ((p_seq p + 1) mod 4)%N;
  pt_next : forall p, nth_error frs (length frs - 1) = Some p -> m_seq s = ((p_seq p + 1) mod 4)%N;
  pt_eom : Forall (fun p => p_eom p = false) frs;
  pt_size : Forall (fun p => length (p_payload p) = m_start s) frs;
  pt_data : m_data s = concat (map p_payload frs);
  pt_total : length (m_data s) <= 4096
}.

Variable s0 : mctp.
Definition at_pre (pre : list op) : expectation := expecting (fst (op_run self supp s0 pre)).

Definition tracked (s : mctp) (ops : list op) (es : list event) : Prop :=
  m_start s = 0 \/
  exists pre tail frs, ops = pre ++ tail /\
    interleaved self supp (m_src_eid s, m_tag s, m_owner s) (at_pre pre) frs tail /\ partial frs s /\
    expecting s = after (at_pre pre) tail /\
    forall k e, length pre <= k -> nth_error es k = Some e -> delivers e = None.

(** Adding the packet that comes next completes or extends the message. *)
Lemma one_message_snoc : forall frs s p, partial frs s ->
  p_som p = false -> terminus p = (m_src_eid s, m_tag s, m_owner s) -> p_seq p = m_seq s ->
  p_eom p = true -> length (p_payload p) <= m_start s -> length (p_payload p) + length (m_data s) <= 4096 ->
  one_message (frs ++ [p]) /\ m_data s ++ p_payload p = concat (map p_payload (frs ++ [p])).
Proof.
  intros frs s p P H1 H2 H3 H4 H5 H6. destruct P.
  assert (D: m_data s ++ p_payload p = concat (map p_payload (frs ++ [p]))).
  { rewrite map_app, concat_app, pt_data0. cbn [map concat]. now rewrite app_nil_r. }
  split; auto. constructor.
  - destruct pt_start0 as (p0 & rest & -> & S0 & SR). exists p0, (rest ++ [p]). splits; auto. apply Forall_app. split; auto.
  - intros x y Hx Hy. assert (A: forall z, In z (frs ++ [p]) -> terminus z = (m_src_eid s, m_tag s, m_owner s)).
    { intros z Hz. apply in_app_or in Hz. destruct Hz as [Hz|[<-|[]]]; auto. now apply (proj1 (Forall_forall _ _) pt_terminus0). }
    now rewrite A, A.
  - intros i x y Hx Hy. apply nth_error_snoc in Hx. apply nth_error_snoc in Hy.
    destruct Hx as [(L1 & Hx)|(L1 & Hx)], Hy as [(L2 & Hy)|(L2 & Hy)]; try lia; [eauto|]. subst y. rewrite H3. apply pt_next0.
    replace (length frs - 1) with i by lia. auto.
  - intros i x Hx. rewrite app_length. cbn [length]. apply nth_error_snoc in Hx. destruct Hx as [(L & Hx)|(L & Hx)].
    + apply nth_error_In in Hx. rewrite (proj1 (Forall_forall _ _) pt_eom0 x Hx). split; [discriminate|lia].
    + subst x. rewrite H4. split; auto. lia.
  - intros p0 i x H0 Hx. destruct pt_start0 as (q0 & rest & -> & S0 & SR). cbn in H0. injection H0 as <-.
    apply Forall_cons_iff in pt_size0. destruct pt_size0 as (Z0 & ZR). rewrite Z0. rewrite app_length. cbn [length].
    apply nth_error_snoc in Hx. destruct Hx as [(L & Hx)|(L & Hx)].
    + assert (Zx: length (p_payload x) = m_start s).
      { apply nth_error_In in Hx. destruct Hx as [<-|Hx]; auto. now apply (proj1 (Forall_forall _ _) ZR). }
      rewrite Zx. lia.
    + subst x. cbn [length] in L. split; auto. lia.
  - rewrite <- D, app_length. lia.
Qed.

Lemma partial_snoc : forall frs s p, partial frs s ->
  p_som p = false -> terminus p = (m_src_eid s, m_tag s, m_owner s) -> p_seq p = m_seq s ->
  p_eom p = false -> length (p_payload p) = m_start s -> length (p_payload p) + length (m_data s) <= 4096 ->
  partial (frs ++ [p]) (add_payload s (p_payload p)).
Proof.
  intros frs s p P H1 H2 H3 H4 H5 H6. destruct P. constructor; cbn [add_payload m_src_eid m_tag m_owner m_seq m_start m_data].
  - destruct pt_start0 as (p0 & rest & -> & S0 & SR). exists p0, (rest ++ [p]). splits; auto. apply Forall_app. split; auto.
  - apply Forall_app. split; auto.
  - intros i x y Hx Hy. apply nth_error_snoc in Hx. apply nth_error_snoc in Hy.
    destruct Hx as [(L1 & Hx)|(L1 & Hx)], Hy as [(L2 & Hy)|(L2 & Hy)]; try lia; [eauto|]. subst y. rewrite H3. apply pt_next0.
    replace (length frs - 1) with i by lia. auto.
  - intros x Hx. rewrite app_length in Hx. cbn [length] in Hx. apply nth_error_snoc in Hx. destruct Hx as [(L & Hx)|(L & ->)]; [lia|].
    now rewrite H3.
  - apply Forall_app. split; auto.
  - apply Forall_app. split; auto.
  - rewrite map_app, concat_app, pt_data0. cbn [map concat]. now rewrite app_nil_r.
  - rewrite app_length. lia.
Qed.

Lemma partial_first : forall s p, p_som p = true -> p_eom p = false -> length (p_payload p) <= 4096 ->
  partial [p] (add_payload (start_message s p) (p_payload p)).
Proof.
  intros s p H1 H2 H3. constructor; cbn [add_payload start_message m_src_eid m_tag m_owner m_seq m_start m_data app map concat].
  - exists p, []. auto.
  - constructor; auto.
  - intros i x y Hx Hy. destruct i; cbn in Hy; [discriminate|destruct i; discriminate].
  - intros x Hx. cbn in Hx. now injection Hx as <-.
  - auto.
  - auto.
  - now rewrite app_nil_r.
  - auto.
Qed.

Lemma one_message_single : forall p, p_som p = true -> p_eom p = true -> length (p_payload p) <= 4096 -> one_message [p].
Proof.
  intros p H1 H2 H3. constructor.
  - exists p, []. auto.
  - intros x y [<-|[]] [<-|[]]. auto.
  - intros i x y Hx Hy. destruct i; cbn in Hy; [discriminate|destruct i; discriminate].
  - intros i x Hx. destruct i as [|i]; cbn in Hx; [injection Hx as <-; cbn; intuition|destruct i; discriminate].
  - intros p0 i x H0 Hx. cbn in H0. injection H0 as <-. destruct i as [|i]; cbn in Hx; [injection Hx as <-; auto|destruct i; discriminate].
  - cbn. rewrite app_nil_r. auto.
Qed.

Lemma expected_frame : forall s r, m_start (set_rsp s r) = m_start s. Proof. reflexivity. Qed.

Lemma handle_response_spec : forall s, let '(s', e) := handle_response s in m_start s' = 0 /\ delivers e = Some (current s).
Proof. intros s. unfold handle_response. destruct (r_state s), (length (m_data s) <=? r_max s); auto. Qed.

(** What a packet that reaches message assembly can do. *)
Lemma add_packet_spec : forall s p, let '(s', e) := add_packet s p in
  (m_start s' = 0 /\ delivers e = None) \/
  (length (p_payload p) + length (m_data s) <= 4096 /\
   ((p_eom p = false /\ s' = add_payload s (p_payload p) /\ delivers e = None) \/
    (p_eom p = true /\ m_start s' = 0 /\ delivers e = Some (current (add_payload s (p_payload p)))))).
Proof.
  intros s p. unfold add_packet, MAX_BODY. destruct (Nat.ltb_spec 4096 (length (p_payload p) + length (m_data s))); [left; auto|].
  cbn zeta. destruct (p_eom p); [|right; auto]. destruct (p_owner p =? 0)%N.
  - pose proof (handle_response_spec (add_payload s (p_payload p))) as R. destruct (handle_response _). right. tauto.
  - right. cbn. auto.
Qed.

Definition delivered_ok (ops : list op) (es : list event) (m : message) : Prop :=
  exists pre mid buf addr frs p,
    ops = pre ++ mid ++ [Rx buf addr] /\
    interleaved self supp (g_src_eid m, g_tag m, g_owner m) (at_pre pre) frs mid /\
    interpret buf addr = inl p /\ (p_dest_eid p = self \/ p_dest_eid p = NULL_EID) /\
    one_message (frs ++ [p]) /\ carried (frs ++ [p]) m /\
    forall k e, length pre <= k -> nth_error es k = Some e -> delivers e = None.

Lemma tracked_step : forall s ops es o, length es = length ops -> op_run self supp s0 ops = (s, es) -> tracked s ops es ->
  let '(s', e) := op_step self supp s o in
  tracked s' (ops ++ [o]) (es ++ [e]) /\ forall m, delivers e = Some m -> delivered_ok (ops ++ [o]) es m.
Proof.
  intros s ops es o LE RUN T.
  destruct o as [buf addr|st tag ty mx]; cbn [op_step].
  2:{ split; [|discriminate]. destruct T as [Z|(pre & tail & frs & E & I & P & X & N)]; [left; auto|]. right.
      exists pre, (tail ++ [Expect st tag ty mx]), frs. rewrite E, app_assoc. splits; auto.
      - apply interleaved_expect. exact I.
      - destruct P. constructor; auto.
      - now rewrite after_app.
      - intros k e0 Hk He. apply nth_error_snoc in He. destruct He as [(_ & He)|(_ & ->)]; eauto. }
  assert (SAME: forall e, delivers e = None ->
     (forall t, m_start s <> 0 -> t = (m_src_eid s, m_tag s, m_owner s) -> foreign self supp (expecting s) t buf addr) ->
     tracked s (ops ++ [Rx buf addr]) (es ++ [e]) /\ forall m, delivers e = Some m -> delivered_ok (ops ++ [Rx buf addr]) es m).
  { intros e DE F. split; [|intros m; congruence]. destruct T as [Z|(pre & tail & frs & E & I & P & X & N)]; [left; auto|].
    destruct (Nat.eq_dec (m_start s) 0) as [Z|NZ]; [left; auto|].
    right. exists pre, (tail ++ [Rx buf addr]), frs. rewrite E, app_assoc. splits; auto.
    - apply interleaved_skip; auto. rewrite <- X. apply F; auto.
    - rewrite after_app, <- X. auto.
    - intros k e0 Hk He. apply nth_error_snoc in He. destruct He as [(_ & He)|(_ & ->)]; eauto. }
  unfold process_packet. destruct (interpret buf addr) as [p|err] eqn:EI.
  2:{ apply SAME; auto. intros. unfold foreign. now rewrite EI. }
  destruct (negb (p_dest_eid p =? self)%N && negb (p_dest_eid p =? NULL_EID)%N) eqn:ED.
  { apply SAME; auto. intros. unfold foreign. rewrite EI. left. apply andb_prop in ED. destruct ED as (E1 & E2).
    apply negb_true_iff, N.eqb_neq in E1. apply negb_true_iff, N.eqb_neq in E2. auto. }
  assert (DOK: p_dest_eid p = self \/ p_dest_eid p = NULL_EID).
  { apply andb_false_iff in ED. destruct ED as [ED|ED]; apply negb_false_iff, N.eqb_eq in ED; auto. }
  destruct (interpret_bounds buf addr p EI) as (B1 & _).
  (* assembly *)
  assert (ASM: let '(s', e) := assemble s p in
     tracked s' (ops ++ [Rx buf addr]) (es ++ [e]) /\ forall m, delivers e = Some m -> delivered_ok (ops ++ [Rx buf addr]) es m).
  { unfold assemble. destruct (p_som p) eqn:ES.
    - pose proof (add_packet_spec (start_message s p) p) as A. destruct (add_packet (start_message s p) p) as [s' e].
      destruct A as [(A1 & A2)|(A1 & [(A2 & A3 & A4)|(A2 & A3 & A4)])].
      + split; [left; auto|congruence].
      + split; [|congruence]. right. exists ops, [Rx buf addr], [p]. subst s'. cbn [start_message m_data length] in A1. splits; auto.
        * change [p] with ([] ++ [p]). apply (interleaved_take _ _ [] []); auto. constructor.
        * apply partial_first; auto. lia.
        * unfold at_pre. rewrite RUN. reflexivity.
        * intros k e0 Hk He. apply nth_error_snoc in He. destruct He as [(L & He)|(_ & ->)]; [lia|auto].
      + split; [left; auto|]. intros m Hm. rewrite A4 in Hm. injection Hm as <-. cbn [start_message m_data length] in A1.
        exists ops, [], buf, addr, [], p. cbn [app]. splits; auto.
        * constructor.
        * apply one_message_single; auto. lia.
        * split; [cbn; now rewrite app_nil_r|]. intros q [<-|[]]. reflexivity.
        * intros k e0 Hk He. assert (k < length es) by (apply nth_error_Some; congruence). lia.
    - destruct (Nat.eqb_spec (m_start s) 0) as [Z|NZ].
      { split; [left; auto|discriminate]. }
      destruct (negb (p_tag p =? m_tag s)%N || negb (p_owner p =? m_owner s)%N) eqn:ET.
      { apply SAME; auto. intros t _ ->. unfold foreign. rewrite EI. right. right. right. split; auto. intros C. injection C as C1 C2 C3.
        rewrite C2, C3, !N.eqb_refl in ET. discriminate. }
      destruct (negb (p_src_eid p =? m_src_eid s)%N) eqn:EE.
      { apply SAME; auto. intros t _ ->. unfold foreign. rewrite EI. right. right. right. split; auto. intros C. injection C as C1 C2 C3.
        rewrite C1, N.eqb_refl in EE. discriminate. }
      apply orb_false_iff in ET. destruct ET as (ET1 & ET2). apply negb_false_iff, N.eqb_eq in ET1. apply negb_false_iff, N.eqb_eq in ET2.
      apply negb_false_iff, N.eqb_eq in EE.
      assert (TT: terminus p = (m_src_eid s, m_tag s, m_owner s)) by (unfold terminus; congruence).
      destruct (N.eqb_spec (p_seq p) (m_seq s)) as [EQ|]; cbn [negb]; [|split; [left; auto|discriminate]].
      destruct (negb (length (p_payload p) =? m_start s) && negb (p_eom p && (length (p_payload p) <? m_start s))) eqn:EL;
        [split; [left; auto|discriminate]|].
      destruct T as [Z|(pre & tail & frs & E & I & P & X & N)]; [contradiction|].
      pose proof (add_packet_spec s p) as A. destruct (add_packet s p) as [s' e].
      assert (LE2: length (p_payload p) <= m_start s /\ (p_eom p = false -> length (p_payload p) = m_start s)).
      { apply andb_false_iff in EL. destruct EL as [EL|EL]; apply negb_false_iff in EL; [apply Nat.eqb_eq in EL; lia|].
        apply andb_prop in EL. destruct EL as (EL1 & EL2). apply Nat.ltb_lt in EL2. split; [lia|congruence]. }
      destruct A as [(A1 & A2)|(A1 & [(A2 & A3 & A4)|(A2 & A3 & A4)])].
      + split; [left; auto|congruence].
      + split; [|congruence]. right. exists pre, (tail ++ [Rx buf addr]), (frs ++ [p]). subst s'. rewrite E, app_assoc. splits; auto.
        * apply interleaved_take; auto.
        * apply partial_snoc; auto. now apply LE2.
        * rewrite after_app. exact X.
        * intros k e0 Hk He. apply nth_error_snoc in He. destruct He as [(_ & He)|(_ & ->)]; eauto.
      + split; [left; auto|]. intros m Hm. rewrite A4 in Hm. injection Hm as <-.
        destruct (one_message_snoc frs s p P ES TT EQ A2 ltac:(lia) ltac:(lia)) as (O1 & O2).
        exists pre, tail, buf, addr, frs, p. rewrite E, app_assoc. splits; auto.
        split; [exact O2|]. intros q Hq. cbn. apply in_app_or in Hq. destruct Hq as [Hq|[<-|[]]]; auto.
        symmetry. now apply (proj1 (Forall_forall _ _) (pt_terminus _ _ P)). }
  destruct (N.eqb_spec (p_owner p) 0) as [EO|EO].
  - destruct (is_expected_response s (p_tag p) (p_som p) (p_type p)) eqn:ER; auto. apply SAME; auto. intros. unfold foreign. rewrite EI. right. left. split; auto. now apply not_awaited.
  - destruct (p_som p && negb (supp (p_type p))) eqn:EU; auto. apply SAME; auto. intros. unfold foreign. rewrite EI.
    apply andb_prop in EU. destruct EU as (U1 & U2). apply negb_true_iff in U2. auto 6.
Qed.

Lemma run_tracked : forall ops, fresh s0 ->
  let '(s, es) := op_run self supp s0 ops in
  tracked s ops es /\
  forall n e m, nth_error es n = Some e -> delivers e = Some m -> delivered_ok (firstn (S n) ops) (firstn n es) m.
Proof.
  intros ops F. induction ops as [|o ops IH] using rev_ind.
  - cbn. split; [left; auto|]. intros n e m H. destruct n; discriminate.
  - rewrite op_run_app. pose proof (length_op_run ops s0) as L.
    destruct (op_run self supp s0 ops) as [s es] eqn:RUN. destruct IH as (T & D). cbn [snd] in L. cbn [op_run].
    pose proof (tracked_step s ops es o L RUN T) as S. destruct (op_step self supp s o) as [s' e]. destruct S as (S1 & S2).
    split; auto. intros n e0 m Hn Hm. apply nth_error_snoc in Hn. destruct Hn as [(Ln & Hn)|(Ln & ->)].
    + specialize (D n e0 m Hn Hm). rewrite firstn_app_le by lia. rewrite firstn_app_le by lia. auto.
    + rewrite firstn_all2 by (rewrite app_length; cbn; lia). subst n. rewrite firstn_app_le, firstn_all by lia. auto.
Qed.

(** The assembly buffer. *)
Lemma add_packet_bounded : forall x p x' e', add_packet x p = (x', e') -> length (m_data x') <= MAX_BODY.
Proof.
  intros x p x' e' Ha. unfold add_packet in Ha.
  destruct (Nat.ltb_spec MAX_BODY (length (p_payload p) + length (m_data x))); [injection Ha as <- _; cbn [reset_assembly m_data length]; lia|].
  cbn zeta in Ha. destruct (p_eom p).
  - assert (C: m_data x' = []).
    { destruct (p_owner p =? 0)%N; [|unfold handle_request in Ha; injection Ha as <- _; reflexivity].
      unfold handle_response in Ha. destruct (r_state _); try (injection Ha as <- _; reflexivity);
        (destruct (_ <=? _); injection Ha as <- _; reflexivity). }
    rewrite C. cbn [length]. lia.
  - injection Ha as <- _. cbn [add_payload m_data]. rewrite app_length. lia.
Qed.

Lemma data_bounded : forall ops s s' es, length (m_data s) <= MAX_BODY ->
  op_run self supp s ops = (s', es) -> length (m_data s') <= MAX_BODY.
Proof.
  induction ops as [|o ops IH]; intros s s' es H R; cbn [op_run] in R; [injection R as <- _; auto|].
  destruct (op_step self supp s o) as [s1 e] eqn:E1. destruct (op_run self supp s1 ops) as [s2 es2] eqn:E2.
  injection R as <- _. apply (IH s1 s2 es2); auto. clear IH E2.
  destruct o as [buf addr|st tag ty mx]; cbn [op_step] in E1; [|injection E1 as <- _; exact H].
  unfold process_packet in E1. destruct (interpret buf addr) as [p|]; [|injection E1 as <- _; auto].
  destruct (_ && _); [injection E1 as <- _; auto|].
  assert (ASM: assemble s p = (s1, e) -> length (m_data s1) <= MAX_BODY).
  { unfold assemble. intros Ha. destruct (p_som p); [now apply add_packet_bounded in Ha|].
    repeat (match type of Ha with (if ?b then _ else _) = _ => destruct b; [injection Ha as <- _; cbn [reset_assembly m_data length]; auto; lia|] end).
    now apply add_packet_bounded in Ha. }
  destruct (p_owner p =? 0)%N; [destruct (is_expected_response _ _ _ _); [auto|injection E1 as <- _; auto]|].
  destruct (p_som p && _); [injection E1 as <- _; auto|auto].
Qed.
End History.

(** * A message sent packet by packet *)
Section Deliver.
Variables sa de se da tag owner self : N.
Variable supp : N -> bool.
Hypothesis Hsa : (sa < 128)%N.
Hypothesis Hne : de <> se.
Hypothesis Htag : (tag < 8)%N.
Hypothesis How : (owner < 2)%N.
Hypothesis Hde : de = self \/ de = NULL_EID.

(** The endpoint accepts packets of this kind: a supported request, or the expected response. *)
Definition welcome (s : mctp) (ty : N) : Prop :=
  (owner = 1%N /\ supp ty = true) \/
  (owner = 0%N /\ (r_state s = RspWaiting \/ r_state s = RspPending) /\ r_tag s = tag /\ r_type s = ty).

Lemma process_built : forall s som eom seq d ty, (seq < 4)%N -> 1 <= length d <= 247 -> welcome s ty ->
  (som = true -> ty = (nth 0 d 0 mod 128)%N) ->
  process_packet self supp s (packet_bytes sa de se som eom seq tag owner da d) da =
  assemble s (built sa de se som eom seq tag owner d).
Proof.
  intros s som eom seq d ty Hseq Hd W HT. unfold process_packet. rewrite interpret_packet_bytes by auto.
  cbn [built p_dest_eid p_owner p_som p_type p_tag].
  assert (E: negb (de =? self)%N && negb (de =? NULL_EID)%N = false).
  { destruct Hde as [->| ->]; rewrite N.eqb_refl; cbn [negb andb]; auto. now rewrite andb_false_r. }
  rewrite E. destruct W as [(-> & WS)|(-> & WR & WT & WY)].
  - cbn [N.eqb]. destruct som; cbn [andb]; auto. rewrite <- HT, WS by auto. reflexivity.
  - cbn [N.eqb]. assert (X: is_expected_response s tag som (if som then (nth 0 d 0 mod 128)%N else 0%N) = true).
    { unfold is_expected_response. rewrite WT, WY, N.eqb_refl. destruct som; cbn [andb negb].
      - rewrite <- HT by auto. rewrite N.eqb_refl. destruct WR as [-> | ->]; reflexivity.
      - destruct WR as [-> | ->]; reflexivity. }
    rewrite X. reflexivity.
Qed.

(** The state with the message assembled. *)
Definition assembled (s : mctp) (d : list N) (q : N) : mctp :=
  {| m_start := m_start s; m_seq := q; m_tag := m_tag s; m_owner := m_owner s; m_src_eid := m_src_eid s;
     m_src_addr := m_src_addr s; m_dest_eid := m_dest_eid s; m_data := d;
     r_state := r_state s; r_tag := r_tag s; r_type := r_type s; r_max := r_max s |}.

Definition finish (s : mctp) : mctp * event := if (owner =? 0)%N then handle_response s else handle_request s.

Lemma receive_rest : forall unit full lst s seq ty, welcome s ty -> (seq < 4)%N ->
  1 <= unit <= 247 -> Forall (fun d => length d = unit) full -> 1 <= length lst <= unit ->
  m_start s = unit -> m_seq s = seq -> m_tag s = tag -> m_owner s = owner -> m_src_eid s = se ->
  length (m_data s) + length (concat (full ++ [lst])) <= 4096 ->
  exists q s' e, finish (assembled s (m_data s ++ concat (full ++ [lst])) q) = (s', e) /\
    receive self supp s (map (fun p => (p, da)) (packets sa de se da tag owner (full ++ [lst]) false seq)) =
    (s', repeat Stored (length full) ++ [e]).
Proof.
  intros unit. induction full as [|d full IH]; intros lst s seq ty W Hq Hu F Hl H1 H2 H3 H4 H5 H6.
  - cbn [app packets map receive]. rewrite (process_built s false true seq lst ty) by (auto; try lia; discriminate).
    unfold assemble, built. cbn [p_som p_tag p_owner p_src_eid p_seq p_payload p_eom].
    destruct (Nat.eqb_spec (m_start s) 0); [lia|]. rewrite H2, H3, H4, H5, !N.eqb_refl. cbn [negb orb].
    assert (E: negb (length lst =? m_start s) && negb (true && (length lst <? m_start s)) = false).
    { destruct (Nat.eqb_spec (length lst) (m_start s)); auto. destruct (Nat.ltb_spec (length lst) (m_start s)); auto. lia. }
    rewrite E. unfold add_packet, MAX_BODY. cbn [p_payload p_eom p_owner].
    cbn [app concat] in *. rewrite app_nil_r in *.
    destruct (Nat.ltb_spec 4096 (length lst + length (m_data s))); [lia|]. cbn zeta.
    exists ((m_seq s + 1) mod 4)%N.
    change (add_payload s lst) with (assembled s (m_data s ++ lst) ((m_seq s + 1) mod 4)%N). fold (finish (assembled s (m_data s ++ lst) ((m_seq s + 1) mod 4)%N)).
    destruct (finish _) as [s' e]. exists s', e. split; auto.
  - apply Forall_cons_iff in F. destruct F as (F1 & F). cbn [app packets]. 
    destruct (full ++ [lst]) as [|x t] eqn:EF; [destruct full; discriminate|]. rewrite <- EF in *. cbn [map receive].
    cbn [app concat] in H6. rewrite app_length in H6.
    rewrite (process_built s false false seq d ty) by (auto; try lia; discriminate).
    unfold assemble, built. cbn [p_som p_tag p_owner p_src_eid p_seq p_payload p_eom].
    destruct (Nat.eqb_spec (m_start s) 0); [lia|]. rewrite H2, H3, H4, H5, !N.eqb_refl. cbn [negb orb].
    rewrite F1, H1, Nat.eqb_refl. cbn [negb andb]. unfold add_packet, MAX_BODY. cbn [p_payload p_eom p_owner].
    destruct (Nat.ltb_spec 4096 (length d + length (m_data s))); [lia|].
    destruct (IH lst (add_payload s d) ((seq + 1) mod 4)%N ty) as (q & s' & e & E1 & E2); auto.
    + apply N.mod_lt. lia.
    + cbn [add_payload m_seq]. now rewrite H2.
    + cbn [add_payload m_data]. rewrite app_length. lia.
    + exists q, s', e. rewrite E2. split; [|reflexivity]. rewrite <- E1. cbn [add_payload m_data concat]. rewrite <- app_assoc. reflexivity.
Qed.

Lemma receive_message : forall unit msg s, 1 <= unit <= 247 -> 1 <= length msg <= 4096 -> welcome s (nth 0 msg 0 mod 128)%N ->
  exists q s' e, finish (assembled (start_message s (built sa de se true true 0 tag owner (hd [] (pieces unit msg)))) msg q) = (s', e) /\
    receive self supp s (map (fun p => (p, da)) (packets sa de se da tag owner (pieces unit msg) true 0)) =
    (s', repeat Stored (length (pieces unit msg) - 1) ++ [e]).
Proof.
  intros unit msg s Hu Hm W. unfold pieces. 
  pose proof (concat_cut (length msg) unit msg ltac:(lia) ltac:(lia)) as CC.
  destruct (cut_sizes (length msg) unit msg ltac:(lia) ltac:(lia)) as (full & lst & E & F & L). rewrite E in *.
  destruct full as [|d full].
  - cbn [app hd packets map receive length repeat Nat.sub]. cbn [app concat] in CC. rewrite app_nil_r in CC. subst lst.
    rewrite (process_built s true true 0 msg (nth 0 msg 0 mod 128)%N) by (auto; lia).
    unfold assemble. cbn [built p_som]. unfold add_packet, MAX_BODY. cbn [built p_payload start_message m_data length p_eom p_owner].
    destruct (Nat.ltb_spec 4096 (length msg + 0)); [lia|]. cbn zeta.
    exists ((0 + 1) mod 4)%N.
    change (assembled (start_message s (built sa de se true true 0 tag owner msg)) msg ((0 + 1) mod 4)%N)
      with (add_payload (start_message s (built sa de se true true 0 tag owner msg)) msg).
    fold (finish (add_payload (start_message s (built sa de se true true 0 tag owner msg)) msg)).
    destruct (finish _) as [s' e]. eauto.
  - apply Forall_cons_iff in F. destruct F as (F1 & F). cbn [app hd packets].
    destruct (full ++ [lst]) as [|x t] eqn:EF; [destruct full; discriminate|]. rewrite <- EF in *. cbn [map receive].
    assert (HD: nth 0 d 0%N = nth 0 msg 0%N).
    { rewrite <- CC. cbn [app concat]. rewrite app_nth1; auto. lia. }
    cbn [app concat] in CC.
    assert (LM: length d + length (concat (full ++ [lst])) = length msg) by (rewrite <- app_length, CC; auto).
    rewrite (process_built s true false 0 d (nth 0 msg 0 mod 128)%N) by (auto; try lia; intros; now rewrite HD).
    unfold assemble. cbn [built p_som]. unfold add_packet, MAX_BODY. cbn [built p_payload start_message m_data length p_eom p_owner].
    destruct (Nat.ltb_spec 4096 (length d + 0)); [lia|]. cbn zeta.
    set (s1 := add_payload (start_message s (built sa de se true false 0 tag owner d)) d).
    destruct (receive_rest unit full lst s1 1%N (nth 0 msg 0 mod 128)%N) as (q & s' & e & E1 & E2); auto; try lia.
    + change (length (m_data s1)) with (length d). lia.
    + exists q, s', e. unfold built, start_message in s1. change (((0 + 1) mod 4)%N) with 1%N. 
      change (add_payload _ d) with s1. rewrite E2. split.
      * rewrite <- E1. change (m_data s1) with d. rewrite CC. reflexivity.
      * rewrite app_length. cbn [length]. replace (S (length full + 1) - 1) with (S (length full)) by lia. reflexivity.
Qed.
End Deliver.
