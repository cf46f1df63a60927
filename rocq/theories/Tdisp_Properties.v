(** C83: an interface is started only with the nonce its lock was granted with. *)
From Coq Require Import List NArith Bool Arith Lia.
From Verif Require Import Base BufferUtil_Model BufferUtil_Proofs Tdisp_Model Tdisp_Spec.
Import ListNotations.
Local Open Scope nat_scope.

Definition byte_list (l : list N) : Prop := Forall (fun x => x < 2 ^ 8)%N l.

Ltac leaves :=
  repeat match goal with
  | H : context [match ?x with _ => _ end] |- _ => lazymatch x with context [match _ with _ => _ end] => fail | _ => destruct x eqn:? end
  | H : (_, _, _) = (_, _, _) |- _ => injection H as ? ? ?; subst
  end.

Section PROOFS.
Variable index : N -> option N.
Variable versions : list N.
Notation process := (process index versions).
Notation run := (run index versions).

Definition granted encrypted e p c r t (c' : contexts) : Prop :=
  exists f n, encrypted = true /\ type_of p = REQ_LOCK /\ length p = HEADER + PARAM /\ version_of p = VERSION_1_0 /\
    index (bdf_of p) = Some f /\ e_get e = true /\ c f = None /\ e_random e = Some n /\ e_lock e = None /\ e_set e = true /\
    t = [Lock f (window HEADER PARAM p)] /\ r = Reply (header 0x03%N (id_of p) ++ n) /\
    c' = (fun g => if (g =? f)%N then Some n else driver_clears e c g).

Lemma process_cases : forall encrypted room e p c r t c', process encrypted room e p c = (r, t, c') ->
  granted encrypted e p c r t c' \/
  ((forall id n, type_of p = REQ_LOCK -> ~ lock_granted r id n) /\ (t = [] /\ c' = c \/ t <> [] /\ c' = driver_clears e c)).
Proof.
  intros encrypted room e p c r t c' H.
  destruct (type_of p =? REQ_LOCK)%N eqn:L.
  - assert (T : type_of p = REQ_LOCK) by (apply N.eqb_eq; exact L).
    unfold Tdisp_Model.process in H. rewrite T in H.
    change (REQ_LOCK =? REQ_VERSION)%N with false in H. change (REQ_LOCK =? REQ_CAPS)%N with false in H.
    change (REQ_LOCK =? REQ_LOCK)%N with true in H. cbn iota in H.
    destruct encrypted; cbn [negb] in H.
    2:{ injection H as <- <- <-. right. split; [discriminate|left; split; reflexivity]. }
    destruct (length p <? HEADER).
    { injection H as <- <- <-. right. split; [discriminate|left; split; reflexivity]. }
    unfold lock_interface, checked, with_index in H.
    destruct (length p =? HEADER + PARAM) eqn:A; cbn [negb] in H.
    2:{ injection H as <- <- <-. right. split; [discriminate|left; split; reflexivity]. }
    destruct (version_of p =? VERSION_1_0)%N eqn:V; cbn [negb] in H.
    2:{ injection H as <- <- <-. right. split; [discriminate|left; split; reflexivity]. }
    destruct (room <? HEADER + NONCE).
    { injection H as <- <- <-. right. split; [discriminate|left; split; reflexivity]. }
    destruct (index (bdf_of p)) as [f|] eqn:F.
    2:{ injection H as <- <- <-. right. split; [discriminate|left; split; reflexivity]. }
    destruct (e_get e) eqn:G; cbn [negb] in H.
    2:{ injection H as <- <- <-. right. split; [discriminate|left; split; reflexivity]. }
    destruct (c f) as [o|] eqn:C.
    { injection H as <- <- <-. right. split; [discriminate|left; split; reflexivity]. }
    destruct (e_random e) as [n|] eqn:R.
    2:{ injection H as <- <- <-. right. split; [discriminate|left; split; reflexivity]. }
    cbv zeta in H.
    destruct (e_lock e) as [d|] eqn:K.
    { destruct d; injection H as <- <- <-; right; (split; [discriminate|right; split; [discriminate|reflexivity]]). }
    destruct (e_set e) eqn:Q; cbn [negb] in H.
    2:{ injection H as <- <- <-. right. split; [discriminate|right; split; [discriminate|reflexivity]]. }
    injection H as <- <- <-. left. exists f, n. apply Nat.eqb_eq in A. apply N.eqb_eq in V.
    repeat split; auto.
  - right. split.
    { intros id n T. rewrite T in L. discriminate. }
    unfold Tdisp_Model.process in H. rewrite L in H. cbn iota in H.
    unfold get_version, get_capabilities, get_report, get_state, start_interface, stop_interface, checked, with_index, err, bad_length in H.
    cbv zeta in H.
    leaves; first [left; split; reflexivity | right; split; [discriminate|reflexivity]].
Qed.

Definition rng_ok (l : list event) : Prop :=
  forall encrypted room e p n, In (Request encrypted room e p) l -> e_random e = Some n -> length n = NONCE /\ byte_list n.

Definition Inv (c : contexts) (seen : list observation) : Prop :=
  forall f n, c f = Some n <-> outstanding index f n seen.

Lemma step_inv : forall c seen v o c', Inv c seen -> step index versions c v = (o, c') -> Inv c' (o :: seen).
Proof.
  intros c seen v o c' H E. destruct v as [encrypted room e p|fs]; cbn [step] in E.
  - destruct (process encrypted room e p c) as [[r t] d] eqn:P.
    injection E as <- <-. intros f n. apply process_cases in P. destruct P as [P|[P Q]].
    + destruct P as (g & m & _ & T & _ & _ & F & _ & C & _ & _ & _ & -> & -> & ->).
      assert (W : clears (Seen (Request encrypted room e p) (Some (Reply (header 0x03%N (id_of p) ++ m))) [Lock g (window HEADER PARAM p)]) f <-> e_clears e f = true).
      { unfold clears; cbn. split; [intros [_ X]; exact X|intros X; split; [discriminate|exact X]]. }
      split.
      * intros X. destruct (f =? g)%N eqn:Y.
        -- apply N.eqb_eq in Y. subst g. injection X as <-. apply Granted; [exact T|exact F|].
           unfold lock_granted, header, id_of, VERSION_1_0. rewrite <- !app_assoc. reflexivity.
        -- unfold driver_clears in X. destruct (e_clears e f) eqn:Z; [discriminate|].
           apply Kept; [apply H; exact X|]. rewrite W. congruence.
      * intros X. inversion X as [? ? ? ? ? ? ? T' F' L'|? ? X' N']; subst.
        -- rewrite F in F'. injection F' as <-. rewrite N.eqb_refl. f_equal.
           unfold lock_granted, header, id_of, VERSION_1_0 in L'. rewrite <- !app_assoc in L'. injection L' as L'.
           apply app_inv_head in L'. injection L' as L'. exact L'.
        -- rewrite W in N'. apply H in X'. destruct (f =? g)%N eqn:Y.
           ++ apply N.eqb_eq in Y. subst g. congruence.
           ++ unfold driver_clears. destruct (e_clears e f); [congruence|exact X'].
    + split.
      * intros X. destruct Q as [[-> ->]|[Q ->]].
        -- apply Kept; [apply H; exact X|]. unfold clears; cbn. intros [Y _]. apply Y; reflexivity.
        -- unfold driver_clears in X. destruct (e_clears e f) eqn:Z; [discriminate|].
           apply Kept; [apply H; exact X|]. unfold clears; cbn. intros [_ Y]. congruence.
      * intros X. inversion X as [? ? ? ? ? ? ? T' F' L'|? ? X' N']; subst.
        -- exfalso. exact (P _ _ T' L').
        -- apply H in X'. destruct Q as [[-> ->]|[Q ->]]; [exact X'|].
           unfold driver_clears. destruct (e_clears e f) eqn:Z; [|exact X'].
           exfalso. apply N'. unfold clears; cbn. split; assumption.
  - injection E as <- <-. intros f n. split.
    + destruct (fs f) eqn:Z; [discriminate|]. intros X. apply Kept; [apply H; exact X|]. unfold clears; cbn. congruence.
    + intros X. inversion X as [|? ? X' N']; subst. apply H in X'. unfold clears in N'; cbn in N'.
      destruct (fs f); [exfalso; apply N'; reflexivity|exact X'].
Qed.

Lemma run_inv : forall l c seen c' seen', Inv c seen -> run c seen l = (c', seen') -> Inv c' seen'.
Proof.
  induction l as [|v l IH]; intros c seen c' seen' H E; cbn [Tdisp_Model.run] in E.
  - assert (c = c' /\ seen = seen') as [<- <-] by (split; congruence). exact H.
  - destruct (step index versions c v) as [o d] eqn:S. apply (IH _ _ _ _ (step_inv _ _ _ _ _ H S) E).
Qed.

Lemma init_inv : Inv init [].
Proof. intros f n. split; [discriminate|intros X; inversion X]. Qed.

Lemma nonces_ok : forall l c seen c' seen', rng_ok l ->
  (forall f n, c f = Some n -> length n = NONCE /\ byte_list n) -> run c seen l = (c', seen') ->
  forall f n, c' f = Some n -> length n = NONCE /\ byte_list n.
Proof.
  induction l as [|v l IH]; intros c seen c' seen' G H E; cbn [Tdisp_Model.run] in E.
  - assert (c = c') as <- by congruence. exact H.
  - destruct (step index versions c v) as [o d] eqn:S.
    refine (IH d _ _ _ _ _ E).
    { intros encrypted room e p n K. apply (G encrypted room e p n). right; exact K. }
    intros f n D. destruct v as [encrypted room e p|fs]; cbn [step] in S.
    + destruct (process encrypted room e p c) as [[r t] d'] eqn:P. injection S as <- <-.
      apply process_cases in P. destruct P as [(g & m & _ & _ & _ & _ & _ & _ & _ & R & _ & _ & _ & _ & ->)|[_ Q]].
      * destruct (f =? g)%N; [injection D as <-; apply (G encrypted room e p); [left; reflexivity|exact R]|].
        unfold driver_clears in D. destruct (e_clears e f); [discriminate|apply (H f); exact D].
      * destruct Q as [[_ ->]|[_ ->]]; [apply (H f); exact D|].
        unfold driver_clears in D. destruct (e_clears e f); [discriminate|apply (H f); exact D].
    + injection S as <- <-. destruct (fs f); [discriminate|apply (H f); exact D].
Qed.
End PROOFS.

(** Whether the driver is told to start interface [f] by a request: exactly if the
    request is protected, well formed, names a function of that interface, and has
    the nonce that is outstanding for the interface: that of the lock granted
    last, the driver not having cleared it since. *)
Theorem C83_start : forall index versions l c seen encrypted room e p r t c' f,
  rng_ok l -> run index versions init [] l = (c, seen) -> byte_list p ->
  process index versions encrypted room e p c = (r, t, c') ->
  (In (Start f) t <->
   encrypted = true /\ length p = 48 /\ nth 0 p 0%N = 0x10%N /\ nth 1 p 0%N = 0x86%N /\
   index (le_value (window 4 2 p)) = Some f /\ e_get e = true /\ outstanding index f (window 16 32 p) seen).
Proof.
  intros index versions l c seen encrypted room e p r t c' f G E B P.
  pose proof (run_inv index versions l _ _ _ _ (init_inv index) E) as I0.
  assert (NO : forall f n, c f = Some n -> length n = NONCE /\ byte_list n).
  { refine (nonces_ok index versions l _ _ _ _ G _ E). intros g n X; discriminate. }
  assert (CMP : forall n, length p = 48 -> length n = NONCE -> byte_list n ->
    buffer_compare (N.ones 8) (Some (window HEADER NONCE p)) (Some n) NONCE = true <-> window 16 32 p = n).
  { intros n L Ln Bn. assert (Lw : length (window HEADER NONCE p) = NONCE) by (rewrite length_window; unfold HEADER, NONCE; lia).
    rewrite buffer_compare_correct; [|..]; auto.
    - change (window 16 32 p) with (window HEADER NONCE p). rewrite !firstn_all2 by lia. reflexivity.
    - unfold window. apply Forall_forall. intros x X. apply (proj1 (Forall_forall _ _) B).
      assert (Y : In x (skipn HEADER p)). { rewrite <- (firstn_skipn NONCE (skipn HEADER p)). apply in_or_app. left; exact X. }
      rewrite <- (firstn_skipn HEADER p). apply in_or_app. right; exact Y.
    - lia.
    - lia. }
  split.
  - intros J. unfold process in P.
    destruct encrypted; cbn [negb] in P; [|injection P as <- <- <-; destruct J].
    destruct (length p <? HEADER); [injection P as <- <- <-; destruct J|].
    destruct (type_of p =? REQ_START)%N eqn:T.
    + apply N.eqb_eq in T. rewrite T in P. cbn in P. unfold start_interface, checked, with_index in P.
      destruct (length p =? HEADER + NONCE) eqn:L; cbn [negb] in P; [|injection P as <- <- <-; destruct J].
      destruct (version_of p =? VERSION_1_0)%N eqn:V; cbn [negb] in P; [|injection P as <- <- <-; destruct J].
      change (0 <? 0) with false in P. cbn iota in P.
      destruct (index (bdf_of p)) as [g|] eqn:F; [|injection P as <- <- <-; destruct J].
      destruct (e_get e) eqn:Q; cbn [negb] in P; [|injection P as <- <- <-; destruct J].
      destruct (c g) as [n|] eqn:C; [|injection P as <- <- <-; destruct J].
      destruct (buffer_compare (N.ones 8) (Some (window HEADER NONCE p)) (Some n) NONCE) eqn:K; cbn [negb] in P; [|injection P as <- <- <-; destruct J].
      assert (g = f).
      { cbv zeta in P. destruct (e_start e) as [[]|]; injection P as <- <- <-; destruct J as [J|[]]; congruence. }
      subst g. apply Nat.eqb_eq in L. apply N.eqb_eq in V. destruct (NO _ _ C) as [Ln Bn].
      apply CMP in K; [|exact L|exact Ln|exact Bn]. rewrite K. repeat split; auto. apply I0. exact C.
    + exfalso. unfold get_version, get_capabilities, lock_interface, get_report, get_state, stop_interface, checked, with_index, err, bad_length in P.
      cbv zeta in P. revert J. leaves; cbn; intros J;
        repeat match goal with X : _ \/ _ |- _ => destruct X end; try discriminate; try contradiction.
  - intros (-> & L & V & T & F & Q & O). apply I0 in O. destruct (NO _ _ O) as [Ln Bn].
    unfold process in P. cbn [negb] in P. replace (length p <? HEADER) with false in P by (unfold HEADER; symmetry; apply Nat.ltb_ge; lia).
    change (nth 1 p 0%N) with (type_of p) in T. rewrite T in P. cbn in P.
    unfold start_interface, checked, with_index in P. rewrite L in P. change (48 =? HEADER + NONCE) with true in P. cbn [negb] in P.
    change (nth 0 p 0%N) with (version_of p) in V. rewrite V in P. change (16 =? VERSION_1_0)%N with true in P.
    change (0 <? 0) with false in P. cbn [negb] in P. unfold bdf_of in P. rewrite F, Q, O in P. cbn [negb] in P.
    rewrite (proj2 (CMP _ L Ln Bn) eq_refl) in P. cbn [negb] in P. cbv zeta in P.
    destruct (e_start e) as [[]|]; injection P as <- <- <-; left; reflexivity.
Qed.
Print Assumptions C83_start.

(** A lock is granted, and the driver told to lock, only if no nonce is
    outstanding for the interface.  The reply has the nonce just made, the driver
    got the parameters of the request, and the nonces of other interfaces are as they
    were but for what the driver cleared. *)
Theorem C83_lock : forall index versions l c seen encrypted room e p r t c' nonce id,
  run index versions init [] l = (c, seen) ->
  process index versions encrypted room e p c = (r, t, c') -> nth 1 p 0%N = 0x83%N -> lock_granted r id nonce ->
  length id = 4 ->
  encrypted = true /\ length p = 36 /\ nth 0 p 0%N = 0x10%N /\ id = window 4 4 p /\ e_random e = Some nonce /\
  e_lock e = None /\
  exists f, index (le_value (window 4 2 p)) = Some f /\ (forall n, ~ outstanding index f n seen) /\
    t = [Lock f (window 16 20 p)] /\ c' f = Some nonce /\
    (forall g, g <> f -> c' g = if e_clears e g then None else c g).
Proof.
  intros index versions l c seen encrypted room e p r t c' nonce id E P T L K.
  pose proof (run_inv index versions l _ _ _ _ (init_inv index) E) as I0.
  apply process_cases in P. destruct P as [P|[P _]]; [|exfalso; exact (P _ _ T L)].
  destruct P as (f & n & -> & _ & Lp & V & F & G & C & R & D & Q & -> & -> & ->).
  unfold lock_granted, header in L. rewrite <- !app_assoc in L. injection L as L.
  assert (X : id_of p = id /\ n = nonce).
  { assert (Li : length (id_of p) = length id).
    { unfold id_of. rewrite length_window, Lp, K. reflexivity. }
    revert L. generalize (id_of p) Li. clear -K. destruct id as [|a [|b [|d [|x [|]]]]]; try discriminate.
    intros q Lq. destruct q as [|a' [|b' [|d' [|x' [|]]]]]; try discriminate. cbn. intros L. split; congruence. }
  destruct X as [<- <-]. repeat split; auto. exists f. repeat split; auto.
  - intros n' O. apply I0 in O. congruence.
  - rewrite N.eqb_refl. reflexivity.
  - intros g H. apply N.eqb_neq in H. rewrite H. reflexivity.
Qed.
Print Assumptions C83_lock.

(** While a nonce is outstanding a request to lock the interface is refused
    before the driver is called, and the nonce stays. *)
Theorem C83_locked : forall index versions l c seen room e p f nonce,
  run index versions init [] l = (c, seen) -> outstanding index f nonce seen ->
  length p = 36 -> nth 0 p 0%N = 0x10%N -> nth 1 p 0%N = 0x83%N -> index (le_value (window 4 2 p)) = Some f ->
  48 <= room -> e_get e = true ->
  process index versions true room e p c =
  (Reply ([0x10; 0x7f; 0; 0]%N ++ window 4 4 p ++ repeat 0%N 8 ++ [4; 0; 0; 0; 0; 0; 0; 0]%N), [], c).
Proof.
  intros index versions l c seen room e p f nonce E O L V T F R G.
  apply (run_inv index versions l _ _ _ _ (init_inv index) E) in O.
  unfold process. cbn [negb]. replace (length p <? HEADER) with false by (symmetry; apply Nat.ltb_ge; unfold HEADER; lia).
  change (nth 1 p 0%N) with (type_of p) in T. rewrite T. cbn. unfold lock_interface, checked, with_index. rewrite L.
  change (36 =? HEADER + PARAM) with true. cbn [negb]. change (nth 0 p 0%N) with (version_of p) in V. rewrite V.
  change (16 =? VERSION_1_0)%N with true. cbn [negb].
  replace (room <? HEADER + NONCE) with false by (symmetry; apply Nat.ltb_ge; unfold HEADER, NONCE; lia).
  unfold bdf_of. rewrite F, G, O. cbn [negb]. unfold err, error_reply, header. rewrite <- !app_assoc. reflexivity.
Qed.
Print Assumptions C83_locked.

(** A request that is not protected, or too short, gets no reply, reaches no
    driver and changes nothing. *)
Theorem C83_unprotected : forall index versions room e p c encrypted,
  encrypted = false \/ length p < 16 ->
  exists r, process index versions encrypted room e p c = (r, [], c) /\ forall q, r <> Reply q.
Proof.
  intros index versions room e p c encrypted [->|H]; unfold process.
  - eexists; split; [reflexivity|discriminate].
  - destruct encrypted; cbn [negb]; [|eexists; split; [reflexivity|discriminate]].
    replace (length p <? HEADER) with true by (symmetry; apply Nat.ltb_lt; exact H).
    eexists; split; [reflexivity|discriminate].
Qed.
Print Assumptions C83_unprotected.

(** The function a call of the driver is for. *)
Definition about (x : call) : option N :=
  match x with CapsOf _ => None | Lock f _ | Start f | Stop f | Report f _ _ _ | State f => Some f end.

(** The type of a reply. *)
Definition reply_type (r : result) : N := match r with Reply q => nth 1 q 0%N | _ => 0%N end.

(** A request makes at most one call of the driver, for the interface it names and
    of the kind it asks for; and replies of success are sent only if that call
    worked, errors only if something did not. *)
Theorem C83_calls : forall index versions encrypted room e p c r t c',
  process index versions encrypted room e p c = (r, t, c') ->
  length t <= 1 /\
  (forall x f, In x t -> about x = Some f -> index (le_value (window 4 2 p)) = Some f) /\
  (forall f, In (Stop f) t -> nth 1 p 0%N = 0x87%N) /\ (forall f, In (Start f) t -> nth 1 p 0%N = 0x86%N) /\
  (forall f d, In (Lock f d) t -> nth 1 p 0%N = 0x83%N /\ d = window 16 20 p) /\
  (reply_type r = 0x06%N -> e_start e = None /\ exists f, t = [Start f]) /\
  (reply_type r = 0x07%N -> e_stop e = None /\ exists f, t = [Stop f]) /\
  (forall f, t = [Start f] -> e_start e = None -> reply_type r = 0x06%N) /\
  (forall f, t = [Stop f] -> e_stop e = None -> reply_type r = 0x07%N).
Proof.
  intros index versions encrypted room e p c r t c' P.
  assert (SP : forall k, 16 <= length p -> nth 1 (splice (firstn HEADER p) 1 [k]) 0%N = k).
  { intros k L. destruct p as [|a [|b q]]; cbn [length] in L; try lia. reflexivity. }
  assert (SQ : forall k x, 16 <= length p -> nth 1 (splice (firstn HEADER p) 1 [k] ++ x) 0%N = k).
  { intros k x L. destruct p as [|a [|b q]]; cbn [length] in L; try lia. reflexivity. }
  unfold process in P.
  destruct encrypted; cbn [negb] in P; [|injection P as <- <- <-; cbn; repeat split; intros; try contradiction; try discriminate; lia].
  destruct (length p <? HEADER) eqn:L0; [injection P as <- <- <-; cbn; repeat split; intros; try contradiction; try discriminate; lia|].
  apply Nat.ltb_ge in L0. unfold HEADER in L0.
  unfold get_version, get_capabilities, lock_interface, get_report, get_state, start_interface, stop_interface, checked, with_index, err, bad_length in P.
  cbv zeta in P. change (nth 1 p 0%N) with (type_of p). change (le_value (window 4 2 p)) with (bdf_of p).
  leaves;
  repeat match goal with H : (_ =? _)%N = true |- _ => apply N.eqb_eq in H end;
  cbn [reply_type];
  try rewrite !SP by exact L0; try rewrite !SQ by exact L0;
  cbn [nth app header error_reply In about length];
  repeat split; intros;
  repeat match goal with
  | H : _ \/ _ |- _ => destruct H
  | H : False |- _ => destruct H
  | H : Lock _ _ = Lock _ _ |- _ => injection H as ? ?
  end; subst; try discriminate; try lia; try congruence; eauto.
Qed.
Print Assumptions C83_calls.

Lemma header_length : forall t (p : list N), 16 <= length p -> length (header t (id_of p)) = 16.
Proof.
  intros t p L. unfold header, id_of. rewrite !app_length, length_window, repeat_length. cbn [length]. lia.
Qed.

Lemma splice_one : forall (p : list N) k, 16 <= length p -> length (splice (firstn HEADER p) 1 [k]) = 16.
Proof.
  intros p k L. rewrite length_splice; rewrite firstn_length; unfold HEADER; cbn [length]; lia.
Qed.

Lemma set_bit_length : forall (caps : list N) m, length caps = CAPS -> (0x80 <= m < 0x100)%N -> length (set_bit caps m) = CAPS.
Proof.
  intros caps m L H. unfold set_bit. rewrite length_splice; [exact L|]. cbn [length]. rewrite L. unfold CAPS.
  assert ((m - 128) / 8 < 16)%N by (apply N.div_lt_upper_bound; lia). lia.
Qed.

(** Every reply fits, if an error reply does and the driver keeps to what it is told:
    capabilities of 28 bytes, and a portion of a report no longer than the space
    it was given. *)
Theorem C83_fits : forall index versions encrypted room e p c r t c' q,
  process index versions encrypted room e p c = (r, t, c') -> r = Reply q ->
  24 <= room -> (forall n, e_random e = Some n -> length n = 32) -> (forall d, e_caps e = Some d -> length d = 28) ->
  (forall d n f o l s, e_report e = inl (d, n) -> t = [Report f o l s] -> (N.of_nat (length d) <= s)%N) ->
  length q <= room.
Proof.
  intros index versions encrypted room e p c r t c' q P -> R G C D. unfold process in P.
  destruct encrypted; cbn [negb] in P; [|discriminate].
  destruct (length p <? HEADER) eqn:L0; [discriminate|]. apply Nat.ltb_ge in L0. unfold HEADER in L0.
  assert (HD : forall t, length (header t (id_of p)) = 16) by (intros; apply header_length; exact L0).
  assert (EL : forall k, length (error_reply (id_of p) k) = 24).
  { intros k. unfold error_reply. rewrite !app_length, HD. reflexivity. }
  assert (EZ : forall k, length (error_reply (repeat 0%N 4) k) = 24) by reflexivity.
  assert (SL : forall k, length (splice (firstn HEADER p) 1 [k]) = 16) by (intros; apply splice_one; exact L0).
  assert (CL : forall d, length d = 28 -> length (fold_left set_bit supported d) = 28).
  { intros d Ld. assert (S : Forall (fun m => 0x80 <= m < 0x100)%N supported) by (repeat constructor; discriminate || reflexivity).
    revert d Ld S. generalize supported. induction l as [|m l IH]; intros d Ld S; [exact Ld|].
    inversion S; subst. cbn [fold_left]. apply IH; [apply set_bit_length; assumption|assumption]. }
  unfold supported in CL. cbn [fold_left] in CL.
  assert (IL : length (id_of p) = 4) by (unfold id_of; rewrite length_window; lia).
  unfold get_version, get_capabilities, lock_interface, get_report, get_state, start_interface, stop_interface, checked, with_index, err, bad_length in P.
  cbv zeta in P.
  leaves;
  repeat match goal with H : (_ <? _) = false |- _ => apply Nat.ltb_ge in H end;
  try pose proof (G _ eq_refl); try pose proof (CL _ (C _ eq_refl)); try pose proof (D _ _ _ _ _ _ eq_refl eq_refl);
  rewrite ?EL, ?EZ; repeat (rewrite ?app_length, ?SL, ?IL; cbn [length]);
  unfold HEADER, NONCE, CAPS in *; try lia.
Qed.
Print Assumptions C83_fits.

(** A message of version 1.0 with cleared reserved bytes. *)
Definition message (type : N) (id body : list N) : list N := [0x10; type; 0; 0]%N ++ id ++ repeat 0%N 8 ++ body.

Ltac decide_constants :=
  repeat match goal with
  | |- context [(?a =? ?b)%N] => let v := eval vm_compute in (a =? b)%N in
      lazymatch v with true => change (a =? b)%N with true | false => change (a =? b)%N with false end; cbn [negb]
  | |- context [?a =? ?b] => let v := eval vm_compute in (a =? b) in
      lazymatch v with true => change (a =? b) with true | false => change (a =? b) with false end; cbn [negb]
  | |- context [?a <? ?b] => let v := eval vm_compute in (a <? b) in
      lazymatch v with true => change (a <? b) with true | false => change (a <? b) with false end
  end; cbn iota.

Lemma caps_bits : forall caps, length caps = 28 ->
  fold_left set_bit supported caps = firstn 4 caps ++ [N.lor (nth 4 caps 0) 0xfe]%N ++ skipn 5 caps.
Proof.
  intros caps L. do 5 (destruct caps as [|? caps]; [discriminate|]).
  unfold supported. cbn [fold_left].
  repeat match goal with |- context [set_bit (?a :: ?b :: ?c :: ?d :: ?x :: caps) ?m] =>
    let v := eval vm_compute in (N.shiftl 1 ((m - 0x80) mod 8)) in
    change (set_bit (a :: b :: c :: d :: x :: caps) m) with (a :: b :: c :: d :: N.lor x v :: caps) end.
  cbn [firstn skipn nth app]. rewrite <- !N.lor_assoc. reflexivity.
Qed.

(** The replies to well-formed requests, byte by byte: the versions, the
    capabilities of the driver with the bits of the seven supported requests, the
    portion of the report with its length and the rest, and the state. *)
Theorem C83_answers : forall index versions room e p c f,
  nth 0 p 0%N = 0x10%N -> index (le_value (window 4 2 p)) = Some f ->
  (length p = 16 -> nth 1 p 0%N = 0x81%N -> 17 + length versions <= room ->
     process index versions true room e p c =
     (Reply (message 1 (window 4 4 p) (N.of_nat (length versions) :: versions)), [], c)) /\
  (forall caps, length p = 20 -> nth 1 p 0%N = 0x82%N -> 44 <= room -> e_caps e = Some caps -> length caps = 28 ->
     process index versions true room e p c =
     (Reply ([nth 0 p 0; 2; nth 2 p 0; nth 3 p 0]%N ++ window 4 12 p ++
             firstn 4 caps ++ [N.lor (nth 4 caps 0) 0xfe]%N ++ skipn 5 caps),
      [CapsOf (window 16 4 p)], driver_clears e c)) /\
  (forall portion rest, length p = 20 -> nth 1 p 0%N = 0x84%N -> 20 <= room -> e_report e = inl (portion, rest) ->
     process index versions true room e p c =
     (Reply (message 4 (window 4 4 p) (le16 (N.of_nat (length portion)) ++ le16 rest ++ portion)),
      [Report f (le_value (window 16 2 p)) (le_value (window 18 2 p)) (N.min 65535 (N.of_nat (room - 20)))], driver_clears e c)) /\
  (forall s, length p = 16 -> nth 1 p 0%N = 0x85%N -> 17 <= room -> e_state e = Some s ->
     process index versions true room e p c = (Reply (message 5 (window 4 4 p) [s]), [State f], driver_clears e c)).
Proof.
  intros index versions room e p c f V F.
  assert (V' : version_of p = 16%N) by exact V.
  unfold process. repeat split; intros; cbn [negb]; unfold get_version, get_capabilities, get_report, get_state, checked, with_index, bdf_of;
  rewrite V', F;
  match goal with H : length p = _ |- _ => rewrite H end;
  match goal with H : nth 1 p 0%N = _ |- _ => assert (T : type_of p = _) by exact H; rewrite T end; decide_constants;
  rewrite (proj2 (Nat.ltb_ge _ _)) by (unfold HEADER, CAPS; lia).
  - unfold message, header. rewrite <- !app_assoc. reflexivity.
  - match goal with H : e_caps e = _ |- _ => rewrite H end. cbv zeta.
    rewrite caps_bits by assumption. rewrite V. clear -H V. f_equal. f_equal. f_equal.

    do 20 (destruct p as [|? p]; [discriminate|]). destruct p; [|discriminate]. cbn in V. subst. reflexivity.
  - match goal with H : e_report e = _ |- _ => rewrite H end. cbv zeta.
    unfold message, header. rewrite <- !app_assoc. reflexivity.
  - match goal with H : e_state e = _ |- _ => rewrite H end. cbv zeta.
    unfold message, header. rewrite <- !app_assoc. reflexivity.
Qed.
Print Assumptions C83_answers.

(** The length of each request. *)
Definition request_length (type : N) : option nat :=
  if (type =? 0x81)%N || (type =? 0x85)%N || (type =? 0x87)%N then Some 16
  else if (type =? 0x82)%N || (type =? 0x84)%N then Some 20
  else if (type =? 0x83)%N then Some 36 else if (type =? 0x86)%N then Some 48 else None.

(** Requests that cannot be served get an error reply with the right code, reach no
    driver and change no nonce. *)
Theorem C83_errors : forall index versions room e p c,
  16 <= length p ->
  let refused id code := process index versions true room e p c =
    (Reply (message 0x7f id (le32 code ++ repeat 0%N 4)), [], c) in
  let type := nth 1 p 0%N in
  (request_length type = None -> refused (repeat 0%N 4) 7%N) /\
  (forall n, request_length type = Some n -> length p <> n -> refused (repeat 0%N 4) 1%N) /\
  (request_length type = Some (length p) -> nth 0 p 0%N <> 0x10%N -> refused (window 4 4 p) 0x41%N) /\
  (request_length type = Some (length p) -> nth 0 p 0%N = 0x10%N -> type <> 0x82%N -> 48 + length versions <= room ->
     index (le_value (window 4 2 p)) = None -> refused (window 4 4 p) 0x101%N).
Proof.
  intros index versions room e p c L0 refused type.
  assert (B : length p <? HEADER = false) by (apply Nat.ltb_ge; exact L0).
  assert (CS : In type [0x81; 0x82; 0x83; 0x84; 0x85; 0x86; 0x87]%N \/ request_length type = None /\
    (forall k, In k [REQ_VERSION; REQ_CAPS; REQ_LOCK; REQ_REPORT; REQ_STATE; REQ_START; REQ_STOP] -> (type_of p =? k)%N = false)).
  { change (type_of p) with type. unfold request_length. generalize type. clear. intros y.
    destruct (y =? 0x81)%N eqn:E1; [left; apply N.eqb_eq in E1; subst y; cbn; tauto|].
    destruct (y =? 0x82)%N eqn:E2; [left; apply N.eqb_eq in E2; subst y; cbn; tauto|].
    destruct (y =? 0x83)%N eqn:E3; [left; apply N.eqb_eq in E3; subst y; cbn; tauto|].
    destruct (y =? 0x84)%N eqn:E4; [left; apply N.eqb_eq in E4; subst y; cbn; tauto|].
    destruct (y =? 0x85)%N eqn:E5; [left; apply N.eqb_eq in E5; subst y; cbn; tauto|].
    destruct (y =? 0x86)%N eqn:E6; [left; apply N.eqb_eq in E6; subst y; cbn; tauto|].
    destruct (y =? 0x87)%N eqn:E7; [left; apply N.eqb_eq in E7; subst y; cbn; tauto|].
    right. split; [reflexivity|]. intros k Hk. repeat (destruct Hk as [<-|Hk]; [assumption|]). destruct Hk. }
  unfold refused, process. cbn [negb]. rewrite B.
  destruct CS as [CS|[RN CS]].
  - assert (T : type_of p = type) by reflexivity. rewrite T.
    clearbody type.
    unfold get_version, get_capabilities, lock_interface, get_report, get_state, start_interface, stop_interface, checked, with_index.
    repeat (destruct CS as [<-|CS]; [|]); [..|destruct CS];
    decide_constants; repeat split; intros;
    repeat match goal with H : request_length ?y = _ |- _ => let v := eval vm_compute in (request_length y) in
      change (request_length y) with v in H; try discriminate H; injection H as H end;
    try congruence;
    try (match goal with |- context [length p =? ?k] =>
      replace (length p =? k) with false by (symmetry; apply Nat.eqb_neq; unfold HEADER, NONCE, PARAM; lia) end; reflexivity);
    match goal with H : _ = length p |- _ => rewrite <- H end; decide_constants;
    try (replace (version_of p =? VERSION_1_0)%N with false by (symmetry; apply N.eqb_neq; assumption); cbn [negb];
      unfold err, error_reply, header, message; rewrite <- !app_assoc; reflexivity);
    (replace (version_of p =? VERSION_1_0)%N with true by (symmetry; apply N.eqb_eq; assumption)); cbn [negb];
    try rewrite (proj2 (Nat.ltb_ge _ _)) by (unfold HEADER, CAPS, NONCE; lia);
    unfold bdf_of; match goal with H : index _ = None |- _ => rewrite H end;
    unfold err, error_reply, header, message; rewrite <- !app_assoc; reflexivity.
  - rewrite !CS by (cbn; tauto). rewrite RN. repeat split; intros; solve [discriminate|reflexivity].
Qed.
Print Assumptions C83_errors.

(** A start with another nonce is refused, and the driver not told. *)
Theorem C83_wrong_nonce : forall index versions l c seen room e p f nonce,
  rng_ok l -> run index versions init [] l = (c, seen) -> byte_list p -> outstanding index f nonce seen ->
  length p = 48 -> nth 0 p 0%N = 0x10%N -> nth 1 p 0%N = 0x86%N -> index (le_value (window 4 2 p)) = Some f ->
  e_get e = true -> window 16 32 p <> nonce ->
  process index versions true room e p c = (Reply (message 0x7f (window 4 4 p) ([2; 1; 0; 0] ++ repeat 0 4)%N), [], c).
Proof.
  intros index versions l c seen room e p f nonce G E B O L V T F Q W.
  pose proof (run_inv index versions l _ _ _ _ (init_inv index) E) as I0. pose proof (proj2 (I0 _ _) O) as C.
  destruct (process index versions true room e p c) as [[r t] c'] eqn:P.
  pose proof (proj1 (C83_start index versions l c seen true room e p r t c' f G E B P)) as S.
  unfold process in P. cbn [negb] in P. replace (length p <? HEADER) with false in P by (symmetry; apply Nat.ltb_ge; unfold HEADER; lia).
  change (nth 1 p 0%N) with (type_of p) in T. rewrite T in P.
  unfold start_interface, checked, with_index in P. rewrite L in P. change (nth 0 p 0%N) with (version_of p) in V. rewrite V in P.
  unfold bdf_of in P. rewrite F, Q, C in P. revert P. decide_constants. intros P.
  destruct (buffer_compare (N.ones 8) (Some (window HEADER NONCE p)) (Some nonce) NONCE) eqn:K; cbn [negb] in P.
  - exfalso. assert (J : In (Start f) t) by (cbv zeta in P; destruct (e_start e) as [[]|]; injection P as <- <- <-; left; reflexivity).
    apply S in J. destruct J as (_ & _ & _ & _ & _ & _ & O'). apply I0 in O'. congruence.
  - rewrite <- P. unfold err, error_reply, header, message. rewrite <- !app_assoc. reflexivity.
Qed.
Print Assumptions C83_wrong_nonce.

(** A nonce is not used up by starting: the request that started an interface
    starts it again, unless the driver clears the context or refuses.  (The comment
    in tdisp_commands.c:543 says that it is cleared; what is cleared is the copy in the
    message.) *)
Theorem C83_nonce_reused_refuted : exists index versions e1 e2 lock start nonce,
  snd (run index versions init [] [Request true 64 e1 lock; Request true 64 e2 start; Request true 64 e2 start]) =
  [Seen (Request true 64 e2 start) (Some (Reply (message 6 (window 4 4 start) []))) [Start 5];
   Seen (Request true 64 e2 start) (Some (Reply (message 6 (window 4 4 start) []))) [Start 5];
   Seen (Request true 64 e1 lock) (Some (Reply (message 3 (window 4 4 lock) nonce))) [Lock 5 (repeat 0%N 20)]].
Proof.
  set (e := Env None None (inr Other) None None None (Some (repeat 7%N 32)) true true (fun _ => false)).
  exists (fun b => if (b =? 0x108)%N then Some 5%N else None), [0x10%N], e, e,
    (message 0x83 [8; 1; 0; 0]%N (repeat 0%N 20)), (message 0x86 [8; 1; 0; 0]%N (repeat 7%N 32)), (repeat 7%N 32).
  reflexivity.
Qed.
Print Assumptions C83_nonce_reused_refuted.

(** An error reply is written without a check of the space for it: a request of
    16 bytes with room for 16 is answered with 24. *)
Theorem C83_error_size_refuted : forall index versions e c,
  exists q, length q = 24 /\
    process index versions true 16 e (message 0x88 (repeat 0%N 4) []) c = (Reply q, [], c).
Proof. intros. eexists; split; [|reflexivity]. reflexivity. Qed.
Print Assumptions C83_error_size_refuted.

(** If the nonce cannot be kept after the driver has locked the interface, the
    requester gets an error but the interface stays locked, without a nonce that
    could start it. *)
Theorem C83_locked_without_nonce_refuted : exists index versions e lock,
  snd (run index versions init [] [Request true 64 e lock]) =
  [Seen (Request true 64 e lock) (Some (Reply (message 0x7f (window 4 4 lock) [5; 0; 0; 0; 0; 0; 0; 0]%N))) [Lock 5 (repeat 0%N 20)]].
Proof.
  exists (fun b => if (b =? 0x108)%N then Some 5%N else None), [0x10%N],
    (Env None None (inr Other) None None None (Some (repeat 7%N 32)) true false (fun _ => false)),
    (message 0x83 [8; 1; 0; 0]%N (repeat 0%N 20)).
  reflexivity.
Qed.
Print Assumptions C83_locked_without_nonce_refuted.

(** A lock, a start with a wrong nonce, then with the right one; and one after the
    driver has cleared the context. *)
Example lock_and_start :
  let e := Env None None (inr Other) None None None (Some (repeat 7%N 32)) true true (fun _ => false) in
  let index := fun b => if (b =? 0x108)%N then Some 5%N else None in
  let lock := message 0x83 [8; 1; 0; 0]%N (repeat 0%N 20) in
  let start n := message 0x86 [8; 1; 0; 0]%N (repeat n 32) in
  map o_calls (snd (run index [0x10%N] init []
    [Request true 64 e lock; Request true 64 e (start 8%N); Request true 64 e (start 7%N);
     Cleared (fun f => (f =? 5)%N); Request true 64 e (start 7%N); Request false 64 e lock; Request true 64 e lock])) =
  [[Lock 5 (repeat 0%N 20)]; []; []; []; [Start 5]; []; [Lock 5 (repeat 0%N 20)]] /\
  rng_ok [Request true 64 e lock] /\ outstanding index 5 (repeat 7%N 32)
    (snd (run index [0x10%N] init [] [Request true 64 e lock])).
Proof.
  split; [reflexivity|]. split.
  - intros encrypted room e p n [H|[]] R. assert (e_random e = Some (repeat 7%N 32)) as R' by (injection H as <- <- <- <-; reflexivity).
    rewrite R' in R. injection R as <-. split; [reflexivity|]. repeat constructor.
  - cbn. apply Granted; reflexivity.
Qed.
