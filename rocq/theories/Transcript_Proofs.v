(** Proofs about the transcript manager: the hash contexts follow the transcripts of the specification. *)
From Coq Require Import List NArith Bool Arith Lia.
From Verif Require Import Base Transcript_Model Transcript_Spec.
Import ListNotations.

Definition idx (c : cname) : nat := match c with CM1M2 => 0 | CL1L2 => 1 | CSess i => 2 + 2 * i | CTh i => 3 + 2 * i end.
Definition okc (n : nat) (c : cname) : Prop := match c with CSess i | CTh i => i < n | _ => True end.

Lemma idx_inj : forall c d, idx c = idx d -> c = d.
Proof. intros [| |i|i] [| |j|j]; cbn [idx]; intros; try lia; try reflexivity; f_equal; lia. Qed.
Lemma idx_bound : forall n c, okc n c -> idx c < 2 + 2 * n.
Proof. intros n [| |i|i]; cbn [idx okc]; lia. Qed.
Lemma same_spec : forall c d, same c d = true <-> c = d.
Proof.
  intros [| |i|i] [| |j|j]; cbn [same]; split; intros H; try reflexivity; try discriminate;
    try (apply Nat.eqb_eq in H; subst; reflexivity); injection H as ->; apply Nat.eqb_refl.
Qed.
Lemma same_refl : forall c, same c c = true.
Proof. intros. apply same_spec. reflexivity. Qed.
Lemma same_neq : forall c d, c <> d -> same c d = false.
Proof. intros c d H. destruct (same c d) eqn:E; [apply same_spec in E; contradiction|reflexivity]. Qed.
Lemma cname_dec : forall c d : cname, c = d \/ c <> d.
Proof. intros c d. destruct (same c d) eqn:E; [left; apply same_spec; exact E|right; intros ->; rewrite same_refl in E; discriminate]. Qed.

(** ** Updating one context *)
Lemma upd_upd : forall A (l : list A) i a b, upd (upd l i a) i b = upd l i b.
Proof. induction l as [|h l IH]; intros [|i] a b; cbn [upd]; try reflexivity. rewrite IH. reflexivity. Qed.

Definition others (s s' : state) : Prop :=
  s_algo s' = s_algo s /\ s_vca s' = s_vca s /\ s_ver s' = s_ver s /\ s_count s' = s_count s.
Definition changed (s s' : state) (c : cname) (e : option (N * list N)) (st : bool) : Prop :=
  s_eng s' = upd (s_eng s) (idx c) e /\ ctx_of s' c = Some (HCtx (idx c) st) /\ (forall d, d <> c -> ctx_of s' d = ctx_of s d) /\ others s s'.

Lemma ctx_of_put : forall s c h, ctx_of s c <> None -> ctx_of (put_ctx s c h) c = Some h.
Proof.
  intros s [| |i|i] h H; cbn [ctx_of put_ctx] in *; try reflexivity.
  - destruct (nth_error (s_sess s) i) as [[t l]|] eqn:E; [|cbn in H; congruence]. cbn [s_sess set_sess].
    rewrite nth_error_upd_eq; [reflexivity|]. apply nth_error_Some. rewrite E. discriminate.
  - destruct (nth_error (s_sess s) i) as [[t l]|] eqn:E; [|cbn in H; congruence]. cbn [s_sess set_sess].
    rewrite nth_error_upd_eq; [reflexivity|]. apply nth_error_Some. rewrite E. discriminate.
Qed.
Lemma ctx_of_put_other : forall s c h d, d <> c -> ctx_of (put_ctx s c h) d = ctx_of s d.
Proof.
  intros s c h d N. destruct c as [| |i|i]; cbn [put_ctx].
  - destruct d; cbn [ctx_of set_m s_m s_l s_sess]; try reflexivity. congruence.
  - destruct d; cbn [ctx_of set_l s_m s_l s_sess]; try reflexivity. congruence.
  - destruct (nth_error (s_sess s) i) as [[t l]|] eqn:E; [|reflexivity].
    assert (B : i < length (s_sess s)) by (apply nth_error_Some; rewrite E; discriminate).
    destruct d as [| |j|j]; cbn [ctx_of set_sess s_m s_l s_sess]; try reflexivity.
    + rewrite nth_error_upd_neq by congruence. reflexivity.
    + destruct (Nat.eq_dec i j) as [<-|M]; [rewrite nth_error_upd_eq, E by exact B; reflexivity|].
      rewrite nth_error_upd_neq by exact M. reflexivity.
  - destruct (nth_error (s_sess s) i) as [[t l]|] eqn:E; [|reflexivity].
    assert (B : i < length (s_sess s)) by (apply nth_error_Some; rewrite E; discriminate).
    destruct d as [| |j|j]; cbn [ctx_of set_sess s_m s_l s_sess]; try reflexivity.
    + destruct (Nat.eq_dec i j) as [<-|M]; [rewrite nth_error_upd_eq, E by exact B; reflexivity|].
      rewrite nth_error_upd_neq by exact M. reflexivity.
    + rewrite nth_error_upd_neq by congruence. reflexivity.
Qed.
Lemma put_fields : forall s c h, s_eng (put_ctx s c h) = s_eng s /\ others s (put_ctx s c h).
Proof.
  intros s [| |i|i] h; cbn [put_ctx]; unfold others; cbn; auto 6.
  - destruct (nth_error (s_sess s) i) as [[t l]|]; cbn; auto 6.
  - destruct (nth_error (s_sess s) i) as [[t l]|]; cbn; auto 6.
Qed.
Lemma ctx_of_eng : forall s e c, ctx_of (set_eng s e) c = ctx_of s c.
Proof. intros s e [| |i|i]; reflexivity. Qed.

Lemma changed_eng : forall s c e st, ctx_of s c = Some (HCtx (idx c) st) -> changed s (set_eng s (upd (s_eng s) (idx c) e)) c e st.
Proof.
  intros s c e st H. unfold changed, others. rewrite ctx_of_eng. cbn [set_eng s_eng s_algo s_vca s_ver s_count].
  do 2 (split; [auto|]). split; [|auto 6]. intros d _. apply ctx_of_eng.
Qed.
Lemma changed_put : forall s s' c e st st', changed s s' c e st -> changed s (put_ctx s' c (HCtx (idx c) st')) c e st'.
Proof.
  intros s s' c e st st' (A & B & C & D1 & D2 & D3 & D4). destruct (put_fields s' c (HCtx (idx c) st')) as (P & Q1 & Q2 & Q3 & Q4).
  unfold changed, others. rewrite P, Q1, Q2, Q3, Q4. split; [exact A|]. split; [apply ctx_of_put; rewrite B; discriminate|].
  split; [|auto]. intros d N. rewrite ctx_of_put_other by exact N. apply C, N.
Qed.
Lemma changed_trans : forall s s' s'' c e st e' st', changed s s' c e st -> changed s' s'' c e' st' -> changed s s'' c e' st'.
Proof.
  intros s s' s'' c e st e' st' (A & B & C & D1 & D2 & D3 & D4) (A' & B' & C' & D1' & D2' & D3' & D4'). unfold changed, others.
  rewrite A', A, upd_upd. split; [reflexivity|]. split; [exact B'|]. split; [|rewrite D1', D2', D3', D4'; auto].
  intros d N. rewrite C' by exact N. apply C, N.
Qed.
Lemma changed_refl : forall s c e st, ctx_of s c = Some (HCtx (idx c) st) -> nth_error (s_eng s) (idx c) = Some e -> changed s s c e st.
Proof.
  intros s c e st H E. unfold changed, others. split; [|auto 8].
  assert (B : idx c < length (s_eng s)) by (apply nth_error_Some; rewrite E; discriminate).
  rewrite <- (upd_same (s_eng s) (idx c) None B) at 1. f_equal. apply nth_error_nth, E.
Qed.

Lemma on_engine_ok : forall s c e st f, ctx_of s c = Some (HCtx (idx c) st) -> nth_error (s_eng s) (idx c) = Some e ->
  exists s', on_engine s (idx c) f = Some (s', fst (f e)) /\ changed s s' c (snd (f e)) st.
Proof.
  intros s c e st f H E. unfold on_engine. rewrite E. destruct (f e) as [ok e'] eqn:F. cbn [fst snd].
  exists (set_eng s (upd (s_eng s) (idx c) e')). split; [reflexivity|]. apply changed_eng, H.
Qed.
Lemma changed_nth : forall s s' c e st, changed s s' c e st -> idx c < length (s_eng s) -> nth_error (s_eng s') (idx c) = Some e.
Proof. intros s s' c e st (A & _) B. rewrite A. apply nth_error_upd_eq, B. Qed.
Lemma changed_length : forall s s' c e st, changed s s' c e st -> length (s_eng s') = length (s_eng s).
Proof. intros s s' c e st (A & _). rewrite A. apply length_upd. Qed.

(** ** The invariant *)
Definition rel (st : bool) (e : option (N * list N)) (t : transcript) : Prop :=
  if st then exists a b, e = Some (a, b) /\ (t = Good a b \/ t = Spoiled) else e = None /\ (t = Empty \/ t = Spoiled).
Definition tied (s : state) (w : view) (c : cname) : Prop :=
  exists st e, ctx_of s c = Some (HCtx (idx c) st) /\ nth_error (s_eng s) (idx c) = Some e /\ rel st e (w_tr w c).
Definition Inv (V n : nat) (s : state) (w : view) : Prop :=
  s_count s = n /\ s_algo s = w_algo w /\ s_vca s = w_vca w /\ s_ver s = w_ver w /\ length (s_vca s) <= V /\
  forall c, okc n c -> tied s w c.

Lemma inv_changed : forall V n s s' w c e st t, Inv V n s w -> okc n c -> changed s s' c e st -> rel st e t -> Inv V n s' (set_tr w c t).
Proof.
  intros V n s s' w c e st t (C & A & VC & VE & VL & T) O CH R. pose proof CH as (E & B & OT & D1 & D2 & D3 & D4).
  unfold Inv. rewrite D1, D2, D3, D4. do 5 (split; [assumption|]). intros d OD.
  destruct (cname_dec d c) as [->|N].
  - destruct (T c O) as (st0 & e0 & X & Y & Z). exists st, e. split; [exact B|]. split.
    + apply (changed_nth _ _ _ _ _ CH). apply nth_error_Some. rewrite Y. discriminate.
    + cbn [set_tr w_tr]. rewrite same_refl. exact R.
  - destruct (T d OD) as (st0 & e0 & X & Y & Z). exists st0, e0. split; [rewrite OT by exact N; exact X|]. split.
    + rewrite E, nth_error_upd_neq; [exact Y|]. intros H. apply N. symmetry. apply idx_inj, H.
    + cbn [set_tr w_tr]. rewrite same_neq by congruence. exact Z.
Qed.

(** ** Adding a message *)
Definition added (s : state) (av : bool) (msg : list N) (st : bool) (e : option (N * list N)) (e' : option (N * list N)) : Prop :=
  if st then exists a b, e = Some (a, b) /\ e' = Some (a, b ++ msg)
  else exists a, s_algo s = Some a /\ e' = Some (a, (if av then s_vca s else []) ++ msg).
Definition whole (st : bool) (e : option (N * list N)) : Prop := if st then e <> None else e = None.

Lemma add_msg_ok : forall s c msg av f st e, ctx_of s c = Some (HCtx (idx c) st) -> nth_error (s_eng s) (idx c) = Some e -> whole st e ->
  exists s' ok e' st', add_msg s c msg av f = Some (s', ok) /\ changed s s' c e' st' /\ whole st' e' /\
    (ok = true -> st' = true /\ added s av msg st e e') /\
    (ok = false -> s_algo s = None \/ f_start f = false \/ f_vca f <> None \/ f_msg f <> None) /\
    (ok = true -> f_msg f = None).
Proof.
  intros s c msg av f st e X Y Wh. unfold add_msg. rewrite X. cbn [h_idx h_started].
  assert (B : idx c < length (s_eng s)) by (apply nth_error_Some; rewrite Y; discriminate).
  destruct st.
  - destruct (on_engine_ok s c e true (eng_update msg (f_msg f)) X Y) as (s' & R & CH). rewrite R.
    destruct e as [[a b]|]; [|cbn in Wh; congruence].
    exists s', (fst (eng_update msg (f_msg f) (Some (a, b)))), (snd (eng_update msg (f_msg f) (Some (a, b)))), true.
    split; [reflexivity|]. split; [exact CH|]. cbn [whole added]. destruct (f_msg f) as [j|]; cbn [eng_update fst snd].
    + split; [discriminate|]. split; [discriminate|]. split; [intros _; right; right; right; discriminate|discriminate].
    + split; [discriminate|]. split; [intros _; split; [reflexivity|]; exists a, b; auto|]. split; [discriminate|reflexivity].
  - cbn in Wh. subst e. destruct (on_engine_ok s c None false (eng_start (s_algo s) (f_start f)) X Y) as (s1 & R1 & CH1). rewrite R1. clear R1.
    destruct (s_algo s) as [a|] eqn:AL; [|].
    2:{ cbn [eng_start fst snd] in *. exists s1, false, None, false. split; [reflexivity|]. split; [exact CH1|].
        split; [reflexivity|]. split; [discriminate|]. split; [left; reflexivity|discriminate]. }
    destruct (f_start f) eqn:FS; cbn [eng_start fst snd] in *.
    2:{ exists s1, false, None, false. split; [reflexivity|]. split; [exact CH1|].
        split; [reflexivity|]. split; [discriminate|]. split; [right; left; reflexivity|discriminate]. }
    pose proof (changed_put _ _ _ _ _ true CH1) as CH2. set (s2 := put_ctx s1 c (HCtx (idx c) true)) in *. clearbody s2. clear CH1.
    assert (MSG : forall s3 b, changed s s3 c (Some (a, b)) true -> (f_msg f = None -> b ++ msg = (if av then s_vca s else []) ++ msg) ->
      exists s' ok e' st', on_engine s3 (idx c) (eng_update msg (f_msg f)) = Some (s', ok) /\ changed s s' c e' st' /\ whole st' e' /\
      (ok = true -> st' = true /\ added s av msg false None e') /\
      (ok = false -> Some a = None \/ true = false \/ f_vca f <> None \/ f_msg f <> None) /\ (ok = true -> f_msg f = None)).
    { intros s3 b CH Hb. pose proof CH as (_ & X3 & _). pose proof (changed_nth _ _ _ _ _ CH B) as Y3.
      destruct (on_engine_ok s3 c (Some (a, b)) true (eng_update msg (f_msg f)) X3 Y3) as (s' & R & CH'). rewrite R.
      pose proof (changed_trans _ _ _ _ _ _ _ _ CH CH') as CH4.
      exists s', (fst (eng_update msg (f_msg f) (Some (a, b)))), (snd (eng_update msg (f_msg f) (Some (a, b)))), true.
      split; [reflexivity|]. split; [exact CH4|]. cbn [whole added]. destruct (f_msg f) as [j|]; cbn [eng_update fst snd].
      - split; [discriminate|]. split; [discriminate|]. split; [intros _; right; right; right; discriminate|discriminate].
      - split; [discriminate|]. split; [intros _; split; [reflexivity|]; exists a; split; [exact AL|]; rewrite Hb; reflexivity|]. split; [discriminate|reflexivity]. }
    destruct av.
    + pose proof CH2 as (_ & X2 & _ & _ & VC & _). pose proof (changed_nth _ _ _ _ _ CH2 B) as Y2.
      destruct (on_engine_ok s2 c (Some (a, [])) true (eng_update (s_vca s2) (f_vca f)) X2 Y2) as (s3 & R & CH3). rewrite R. clear R.
      pose proof (changed_trans _ _ _ _ _ _ _ _ CH2 CH3) as CH4. destruct (f_vca f) as [j|] eqn:FV; cbn [eng_update fst snd] in *.
      * exists s3, false, (Some (a, [] ++ j)), true. split; [reflexivity|]. split; [exact CH4|]. cbn [whole].
        split; [discriminate|]. split; [discriminate|]. split; [right; right; left; discriminate|discriminate].
      * apply (MSG s3 _ CH4). intros _. cbn [app]. rewrite VC. reflexivity.
    + apply (MSG s2 [] CH2). reflexivity.
Qed.

Lemma tied_whole : forall st e t, rel st e t -> whole st e.
Proof. intros [|] e t; cbn; [intros (a & b & -> & _); discriminate|intros [-> _]; reflexivity]. Qed.

Lemma add_msg_inv : forall V n s w c msg f, Inv V n s w -> okc n c ->
  exists s' ok, add_msg s c msg (with_vca c (s_ver s)) f = Some (s', ok) /\
    Inv V n s' (set_tr w c (if ok then append w c msg else Spoiled)) /\
    (ok = false -> w_algo w = None \/ f_start f = false \/ f_vca f <> None \/ f_msg f <> None).
Proof.
  intros V n s w c msg f H O. pose proof H as (C & A & VC & VE & VL & T). destruct (T c O) as (st & e & X & Y & Z).
  destruct (add_msg_ok s c msg (with_vca c (s_ver s)) f st e X Y (tied_whole _ _ _ Z)) as (s' & ok & e' & st' & R & CH & W & OK & FL & _).
  exists s', ok. split; [exact R|]. split; [|rewrite <- A; exact FL].
  apply (inv_changed V n s s' w c e' st' _ H O CH). destruct ok.
  - destruct (OK eq_refl) as [-> AD]. clear FL OK. unfold append. destruct st; cbn [rel added] in *.
    + destruct Z as (a & b & -> & D). destruct AD as (a' & b' & E & ->). injection E as <- <-. exists a, (b ++ msg). split; [reflexivity|].
      destruct D as [-> | ->]; auto.
    + destruct Z as (-> & D). destruct AD as (a & AL & ->). eexists _, _. split; [reflexivity|].
      destruct D as [-> | ->]; [|right; reflexivity]. rewrite <- A, AL. left. rewrite <- VE, <- VC. reflexivity.
  - clear OK. destruct st'; cbn in W |- *; [destruct e' as [[a b]|]; [exists a, b; auto|congruence]|auto].
Qed.

(** ** Resetting a context *)
Lemma reset_ctx_inv : forall V n s w c, Inv V n s w -> okc n c ->
  exists s', reset_ctx s c = Some s' /\ Inv V n s' (set_tr w c Empty).
Proof.
  intros V n s w c H O. pose proof H as (C & A & VC & VE & VL & T). destruct (T c O) as (st & e & X & Y & Z).
  unfold reset_ctx. rewrite X. cbn [h_idx h_started]. destruct st.
  - destruct (on_engine_ok s c e true (fun _ => (true, None)) X Y) as (s1 & R & CH). rewrite R. eexists. split; [reflexivity|].
    eapply inv_changed; [exact H|exact O|apply (changed_put _ _ _ _ _ false CH)|]. cbn. auto.
  - exists s. split; [reflexivity|]. eapply inv_changed; [exact H|exact O|apply (changed_refl s c e false X Y)|].
    cbn in *. destruct Z as [-> _]. auto.
Qed.

Lemma inv_weaken : forall V n s w w', Inv V n s w -> w_algo w' = w_algo w -> w_vca w' = w_vca w -> w_ver w' = w_ver w ->
  (forall c, okc n c -> w_tr w' c = w_tr w c) -> Inv V n s w'.
Proof.
  intros V n s w w' (C & A & VC & VE & VL & T) EA EV EE ET. unfold Inv. rewrite EA, EV, EE. do 5 (split; [assumption|]).
  intros c O. destruct (T c O) as (st & e & X & Y & Z). exists st, e. rewrite ET by exact O. auto.
Qed.

Lemma reset_session_inv : forall V n s w i, Inv V n s w -> i < n ->
  exists s', reset_session s i = Some s' /\ Inv V n s' (set_tr (set_tr w (CSess i) Empty) (CTh i) Empty).
Proof.
  intros V n s w i H L. unfold reset_session. pose proof H as (C & _). rewrite C. destruct (Nat.leb_spec n i); [lia|].
  destruct (reset_ctx_inv V n s w (CSess i) H L) as (s1 & -> & H1). apply (reset_ctx_inv V n s1 _ (CTh i) H1 L).
Qed.

Definition between (i k : nat) (c : cname) : bool := match c with CTh j | CSess j => (i <=? j) && (j <? i + k) | _ => false end.
Lemma reset_sessions_inv : forall V n k i s w, Inv V n s w -> i + k <= n ->
  exists s', reset_sessions k i s = Some s' /\
    Inv V n s' (View (w_algo w) (w_vca w) (w_ver w) (fun c => if between i k c then Empty else w_tr w c)).
Proof.
  intros V n. induction k as [|k IH]; intros i s w H L; cbn [reset_sessions].
  - exists s. split; [reflexivity|]. apply (inv_weaken V n s w); [exact H|reflexivity|reflexivity|reflexivity|].
    intros c _. cbn [w_tr]. destruct c as [| |j|j]; cbn [between]; try reflexivity.
    + destruct (Nat.leb_spec i j), (Nat.ltb_spec j (i + 0)); cbn; try reflexivity; lia.
    + destruct (Nat.leb_spec i j), (Nat.ltb_spec j (i + 0)); cbn; try reflexivity; lia.
  - destruct (reset_session_inv V n s w i H ltac:(lia)) as (s1 & -> & H1).
    destruct (IH (S i) s1 _ H1 ltac:(lia)) as (s2 & -> & H2). exists s2. split; [reflexivity|].
    apply (inv_weaken V n s2 _ _ H2); [reflexivity|reflexivity|reflexivity|].
    intros c _. cbn [w_tr set_tr]. destruct c as [| |j|j]; cbn [between same]; try reflexivity.
    + destruct (Nat.leb_spec i j), (Nat.leb_spec (S i) j), (Nat.ltb_spec j (i + S k)), (Nat.ltb_spec j (S i + k)), (Nat.eqb_spec i j);
        cbn; try reflexivity; lia.
    + destruct (Nat.leb_spec i j), (Nat.leb_spec (S i) j), (Nat.ltb_spec j (i + S k)), (Nat.ltb_spec j (S i + k)), (Nat.eqb_spec i j);
        cbn; try reflexivity; lia.
Qed.

Lemma set_vca_inv : forall V n s w v, Inv V n s w -> length v <= V -> Inv V n (set_vca s v) (View (w_algo w) v (w_ver w) (w_tr w)).
Proof.
  intros V n s w v (C & A & VC & VE & VL & T) L. unfold Inv, set_vca. cbn [s_count s_algo s_vca s_ver w_algo w_vca w_ver].
  do 5 (split; [auto|]). intros c O. destruct (T c O) as (st & e & X & Y & Z). exists st, e. split; [|auto].
  destruct c; exact X.
Qed.
Lemma set_algo_inv : forall V n s w v, Inv V n s w -> Inv V n (set_algo s v) (View v (w_vca w) (w_ver w) (w_tr w)).
Proof.
  intros V n s w v (C & A & VC & VE & VL & T). unfold Inv, set_algo. cbn [s_count s_algo s_vca s_ver w_algo w_vca w_ver].
  do 5 (split; [auto|]). intros c O. destruct (T c O) as (st & e & X & Y & Z). exists st, e. split; [|auto].
  destruct c; exact X.
Qed.
Lemma set_ver_inv : forall V n s w v, Inv V n s w -> Inv V n (set_ver s v) (View (w_algo w) (w_vca w) v (w_tr w)).
Proof.
  intros V n s w v (C & A & VC & VE & VL & T). unfold Inv, set_ver. cbn [s_count s_algo s_vca s_ver w_algo w_vca w_ver].
  do 5 (split; [auto|]). intros c O. destruct (T c O) as (st & e & X & Y & Z). exists st, e. split; [|auto].
  destruct c; exact X.
Qed.

Lemma reset_all_inv : forall V n s w, Inv V n s w ->
  exists s', reset_all s = Some s' /\ Inv V n s' (View None [] (w_ver w) (fun _ => Empty)).
Proof.
  intros V n s w H. unfold reset_all.
  pose proof (set_vca_inv _ _ _ _ [] (set_algo_inv _ _ _ _ None H) (Nat.le_0_l _)) as H1. cbn [w_algo w_vca w_ver w_tr] in H1.
  destruct (reset_ctx_inv V n _ _ CM1M2 H1 Logic.I) as (s2 & -> & H2).
  destruct (reset_ctx_inv V n _ _ CL1L2 H2 Logic.I) as (s3 & -> & H3). pose proof H3 as (C3 & _). rewrite C3.
  destruct (reset_sessions_inv V n n 0 s3 _ H3 (le_n _)) as (s4 & -> & H4). exists s4. split; [reflexivity|].
  apply (inv_weaken V n s4 _ _ H4); [reflexivity|reflexivity|reflexivity|].
  intros c O. cbn [w_tr set_tr]. destruct c as [| |j|j]; cbn [between same okc] in *; try reflexivity.
  - destruct (Nat.ltb_spec j (0 + n)); [reflexivity|lia].
  - destruct (Nat.ltb_spec j (0 + n)); [reflexivity|lia].
Qed.

(** ** The hash of a context *)
Section Step.
Variables MAXS VCAMAX : nat.
Variable HASH : N -> list N -> list N.

Definition hashed (w : view) (c : cname) (h : list N) : Prop :=
  match w_tr w c with Good a b => h = HASH a b | Spoiled => True | Empty => False end.

Lemma get_hash_inv : forall n s w k fin session i g, Inv VCAMAX n s w ->
  exists s' r, get_hash HASH s k fin session i g = Some (s', r) /\ Inv VCAMAX n s' (observe n w (GetHash k fin session i g, r)) /\
    (r = RErr \/ exists h c, r = RHash h /\ target k session i = Some c /\ okc n c /\ mismatched k session = false /\ hashed w c h) /\
    (forall c a b, target k session i = Some c -> mismatched k session = false -> okc n c -> w_tr w c = Good a b -> g = true -> r = RHash (HASH a b)).
Proof.
  intros n s w k fin session i g H. unfold get_hash. pose proof H as (C & A & VC & VE & VL & T).
  assert (SKIP : Inv VCAMAX n s (observe n w (GetHash k fin session i g, RErr))) by (cbn; destruct fin; exact H).
  change (match k with KM1M2 => session | KTh => negb session | _ => false end) with (mismatched k session).
  destruct (mismatched k session) eqn:M.
  { exists s, RErr. split; [reflexivity|]. split; [exact SKIP|]. split; [left; reflexivity|discriminate]. }
  rewrite C. destruct (session && (n <=? i)) eqn:SI.
  { exists s, RErr. split; [reflexivity|]. split; [exact SKIP|]. split; [left; reflexivity|].
    intros c a b TG _ O. apply andb_prop in SI as [-> SI]. apply Nat.leb_le in SI.
    destruct k; cbn in TG, M; try discriminate; injection TG as <-; cbn in O; lia. }
  change (match k with KM1M2 => Some CM1M2 | KL1L2 => Some (if session then CSess i else CL1L2) | KTh => Some (CTh i) | _ => None end)
    with (target k session i).
  destruct (target k session i) as [c|] eqn:TG.
  2:{ exists s, RErr. split; [reflexivity|]. split; [exact SKIP|]. split; [left; reflexivity|discriminate]. }
  assert (O : okc n c).
  { destruct k, session; cbn in TG, M, SI; try discriminate; injection TG as <-; cbn; try exact Logic.I; apply Nat.leb_gt in SI; exact SI. }
  destruct (T c O) as (st & e & X & Y & Z). rewrite X. cbn [h_started h_idx]. destruct st; cbn [negb].
  2:{ exists s, RErr. split; [reflexivity|]. split; [exact SKIP|]. split; [left; reflexivity|].
      intros c' a b E _ _ G _. injection E as <-. cbn in Z. destruct Z as [_ [Z|Z]]; congruence. }
  rewrite Y. cbn [rel] in Z. destruct Z as (a & b & -> & D). destruct g; cbn [negb].
  2:{ exists s, RErr. split; [reflexivity|]. split; [exact SKIP|]. split; [left; reflexivity|discriminate]. }
  assert (HH : hashed w c (HASH a b)) by (unfold hashed; destruct D as [-> | ->]; auto).
  assert (LAST : forall c' a' b', Some c = Some c' -> false = false -> okc n c' -> w_tr w c' = Good a' b' -> true = true -> RHash (HASH a b) = RHash (HASH a' b')).
  { intros c' a' b' E _ _ G _. injection E as <-. destruct D as [D|D]; rewrite D in G; [injection G as <- <-; reflexivity|discriminate]. }
  destruct fin.
  - eexists _, _. split; [reflexivity|]. split; [|split; [right; exists (HASH a b), c; auto|exact LAST]].
    cbn [observe]. rewrite TG.
    eapply inv_changed; [exact H|exact O|eapply changed_put, changed_eng, X|]. cbn. auto.
  - eexists _, _. split; [reflexivity|]. split; [exact H|split; [right; exists (HASH a b), c; auto|exact LAST]].
Qed.

Definition clean (f : fault) : Prop := f_start f = true /\ f_vca f = None /\ f_msg f = None.

Lemma update_inv : forall n s w k msg session i f, n <= MAXS -> Inv VCAMAX n s w -> valid n (Update k msg session i f) ->
  exists s' ok, update MAXS VCAMAX s k msg session i f = Some (s', ok) /\
    Inv VCAMAX n s' (observe n w (Update k msg session i f, if ok then ROk else RErr)) /\
    (clean f -> msg <> [] -> target k session i <> None -> w_algo w <> None -> ok = true) /\
    (k = KVca -> ok = negb (length msg =? 0) && (length (w_vca w) + length msg <=? VCAMAX)).
Proof.
  intros n s w k msg session i f NM H VA. unfold update. pose proof H as (C & A & VC & VE & VL & T).
  destruct msg as [|x msg].
  { cbn [length Nat.eqb]. exists s, false. split; [reflexivity|]. split; [destruct k; exact H|].
    split; [congruence|reflexivity]. }
  replace (length (x :: msg) =? 0) with false by reflexivity. set (m := x :: msg) in *.
  assert (NE : m <> []) by discriminate.
  assert (ADD : forall c, target k session i = Some c -> okc n c -> k <> KVca ->
    exists s' ok, add_msg s c m (with_vca c (s_ver s)) f = Some (s', ok) /\
    Inv VCAMAX n s' (observe n w (Update k m session i f, if ok then ROk else RErr)) /\
    (clean f -> m <> [] -> target k session i <> None -> w_algo w <> None -> ok = true) /\
    (k = KVca -> ok = negb false && (length (w_vca w) + length m <=? VCAMAX))).
  { intros c TG O K. destruct (add_msg_inv VCAMAX n s w c m f H O) as (s' & ok & R & I' & FL). exists s', ok. split; [exact R|].
    split; [|split; [|intros; contradiction]].
    - replace (observe n w (Update k m session i f, if ok then ROk else RErr)) with (set_tr w c (if ok then append w c m else Spoiled)); [exact I'|].
      destruct k; try contradiction; unfold observe; rewrite TG; unfold m; destruct ok; reflexivity.
    - intros (F1 & F2 & F3) _ _ AL. destruct ok; [reflexivity|]. destruct (FL eq_refl) as [D|[D|[D|D]]]; congruence. }
  destruct k.
  - destruct (Nat.ltb_spec (VCAMAX - length (s_vca s)) (length m)) as [L|L].
    + exists s, false. split; [reflexivity|]. split; [exact H|]. split; [cbn; congruence|]. intros _. rewrite <- VC.
      destruct (Nat.leb_spec (length (s_vca s) + length m) VCAMAX); [lia|reflexivity].
    + eexists _, true. split; [reflexivity|]. split; [|split; [reflexivity|]].
      * cbn [observe]. rewrite <- VC. apply set_vca_inv; [exact H|]. rewrite app_length. lia.
      * intros _. rewrite <- VC. destruct (Nat.leb_spec (length (s_vca s) + length m) VCAMAX); [reflexivity|lia].
  - apply (ADD CM1M2); [reflexivity|exact Logic.I|discriminate].
  - destruct session; cbn [andb].
    + cbn in VA. destruct (Nat.leb_spec MAXS i); [lia|]. apply (ADD (CSess i)); [reflexivity|exact VA|discriminate].
    + apply (ADD CL1L2); [reflexivity|exact Logic.I|discriminate].
  - destruct VA as [-> VA]. cbn [andb]. destruct (Nat.leb_spec MAXS i); [lia|]. apply (ADD (CTh i)); [reflexivity|exact VA|discriminate].
  - exists s, false. split; [reflexivity|]. split; [exact H|]. split; [cbn; congruence|discriminate].
Qed.

Definition explained (n : nat) (w : view) (e : op * result) : Prop :=
  match e with
  | (Update KVca m _ _ _, r) => r = if negb (length m =? 0) && (length (w_vca w) + length m <=? VCAMAX) then ROk else RErr
  | (Update k m session i f, r) => clean f -> m <> [] -> target k session i <> None -> w_algo w <> None -> r = ROk
  | (GetHash k fin session i g, r) =>
    (r = RErr \/ exists h c, r = RHash h /\ target k session i = Some c /\ okc n c /\ mismatched k session = false /\ hashed w c h) /\
    (forall c a b, target k session i = Some c -> mismatched k session = false -> okc n c -> w_tr w c = Good a b -> g = true -> r = RHash (HASH a b))
  | (SetAlgo (Some _), r) => r = match w_algo w with None => ROk | Some _ => RErr end
  | _ => True
  end.

Lemma step_inv : forall n s w o, n <= MAXS -> Inv VCAMAX n s w -> valid n o ->
  exists s' r, step MAXS VCAMAX HASH s o = Some (s', r) /\ Inv VCAMAX n s' (observe n w (o, r)) /\ explained n w (o, r).
Proof.
  intros n s w o NM H VA. pose proof H as (C & A & VC & VE & VL & T). destruct o as [[a|]|v|k msg session i f|k fin session i g|k session i|i|].
  - cbn [step]. rewrite A. destruct (w_algo w) eqn:E; eexists _, _; (split; [reflexivity|]); cbn [observe explained]; rewrite E; (split; [|reflexivity]).
    + exact H.
    + apply set_algo_inv, H.
  - eexists _, _. split; [reflexivity|]. split; [exact H|exact Logic.I].
  - eexists _, _. split; [reflexivity|]. split; [apply set_ver_inv, H|exact Logic.I].
  - cbn [step]. destruct (update_inv n s w k msg session i f NM H VA) as (s' & ok & -> & I' & OK & VO). eexists _, _. split; [reflexivity|].
    split; [exact I'|]. destruct k; cbn [explained]; try (intros X1 X2 X3 X4; rewrite OK by assumption; reflexivity).
    rewrite VO by reflexivity. reflexivity.
  - cbn [step]. destruct (get_hash_inv n s w k fin session i g H) as (s' & r & -> & I' & D & G). eexists _, _. split; [reflexivity|].
    split; [exact I'|]. split; [exact D|exact G].
  - cbn [step]. unfold reset_context. change (match k with KM1M2 => session | KTh => negb session | _ => false end) with (mismatched k session).
    cbn [observe]. rewrite C. destruct (mismatched k session) eqn:M; cbn [orb].
    { eexists _, _. split; [reflexivity|]. split; [exact H|exact Logic.I]. }
    destruct (session && (n <=? i)) eqn:SI.
    { eexists _, _. split; [reflexivity|]. split; [exact H|exact Logic.I]. }
    assert (RC : forall c, okc n c -> exists s' r, done (reset_ctx s c) = Some (s', r) /\ Inv VCAMAX n s' (set_tr w c Empty) /\ True).
    { intros c O. destruct (reset_ctx_inv VCAMAX n s w c H O) as (s' & -> & I'). eexists _, _. split; [reflexivity|]. auto. }
    destruct k; cbn [target].
    + eexists _, _. split; [reflexivity|]. split; [apply set_vca_inv; [exact H|apply Nat.le_0_l]|exact Logic.I].
    + apply RC. exact Logic.I.
    + destruct session; [|apply RC; exact Logic.I]. cbn [andb] in SI. apply Nat.leb_gt in SI. apply RC. exact SI.
    + cbn in M. destruct session; [|discriminate]. cbn [andb] in SI. apply Nat.leb_gt in SI. apply RC. exact SI.
    + eexists _, _. split; [reflexivity|]. split; [exact H|exact Logic.I].
  - cbn [step observe]. destruct (Nat.leb_spec n i) as [L|L].
    + unfold reset_session. rewrite C. destruct (Nat.leb_spec n i); [|lia]. eexists _, _. split; [reflexivity|]. split; [exact H|exact Logic.I].
    + destruct (reset_session_inv VCAMAX n s w i H L) as (s' & -> & I'). eexists _, _. split; [reflexivity|]. split; [exact I'|exact Logic.I].
  - cbn [step observe]. destruct (reset_all_inv VCAMAX n s w H) as (s' & -> & I'). eexists _, _. split; [reflexivity|]. split; [exact I'|exact Logic.I].
Qed.

Lemma init_inv : forall k s, init MAXS k = Some s -> Inv VCAMAX (sessions MAXS k) s view0.
Proof.
  intros k s H. unfold init in H. destruct (Nat.ltb_spec k 2) as [|L]; [discriminate|]. pose proof (f_equal (fun o => match o with Some x => x | None => s end) H) as E; cbv beta iota in E; subst s; clear H.
  unfold Inv. cbn [s_count s_algo s_vca s_ver w_algo w_vca w_ver view0 length]. do 4 (split; [reflexivity|]). split; [lia|].
  intros c O. assert (B : idx c < k).
  { pose proof (idx_bound _ _ O). unfold sessions in *. pose proof (Nat.mul_div_le (k - 2) 2). lia. }
  exists false, None. split; [|split].
  - destruct c as [| |i|i]; cbn [ctx_of s_m s_l s_sess idx]; try reflexivity; cbn [okc] in O; unfold sessions in O;
      (rewrite nth_error_map, (nth_error_nth' _ 0), seq_nth by (try rewrite seq_length; lia));
      cbn [option_map]; change (0 + i) with i; rewrite (proj2 (Nat.ltb_lt _ _) O); reflexivity.
  - cbn [s_eng]. rewrite (nth_error_nth' _ None) by (rewrite repeat_length; exact B). rewrite nth_repeat. reflexivity.
  - cbn. auto.
Qed.

Lemma run_inv : forall n l s w, n <= MAXS -> Inv VCAMAX n s w -> Forall (valid n) l ->
  exists s' es, run MAXS VCAMAX HASH s l = Some (s', es) /\ Inv VCAMAX n s' (views n w es) /\ map fst es = l /\
    forall e1 e e2, es = e1 ++ e :: e2 -> explained n (views n w e1) e.
Proof.
  intros n. induction l as [|o l IH]; intros s w NM H F; cbn [run].
  - exists s, []. split; [reflexivity|]. split; [exact H|]. split; [reflexivity|]. intros [|] e e2 E; discriminate.
  - inversion F as [|? ? VO FL]; subst. destruct (step_inv n s w o NM H VO) as (s1 & r & -> & H1 & EX).
    destruct (IH s1 _ NM H1 FL) as (s' & es & -> & H2 & M & A). exists s', ((o, r) :: es). split; [reflexivity|]. split; [exact H2|].
    split; [cbn; rewrite M; reflexivity|]. intros [|e' e1] e e2 E; cbn [app] in E; injection E as <- E.
    + exact EX.
    + apply (A e1 e e2 E).
Qed.
End Step.
