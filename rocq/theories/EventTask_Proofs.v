(** The invariant of the event task under every schedule. *)
From Coq Require Import List NArith ZArith Lia Bool Arith.
From Verif Require Import Base EventTask_Model EventTask_Spec.
Import ListNotations.
Local Open Scope nat_scope.

(** Positions at which a client owns the lock. *)
Definition holds (pc : cpc) : bool :=
  match pc with
  | CTest | CBusy | CStatus | CAction | CLen | CCopy _ | NTask | NRunning | NNotifying | NFind
  | NClear _ | NUnlock _ | SBody | SUnlock _ => true
  | _ => false
  end.
Definition filling (pc : cpc) : bool :=
  match pc with
  | CStatus | CAction | CLen | CCopy _ | NTask | NRunning | NNotifying | NFind | NClear _ => true
  | _ => false
  end.
Definition written (pc : cpc) : bool :=
  match pc with
  | CAction | CLen | CCopy _ | NTask | NRunning | NNotifying | NFind => true
  | _ => false
  end.
Definition post (pc : cpc) : bool :=
  match pc with NClear _ | NUnlock _ | NCheck _ | NGive _ => true | _ => false end.
Definition wholds (w : wpc) : bool :=
  match w with
  | WInitClear | WInitUnlock | WSetWrite _ _ _ | WSetUnlock _ | WClear | WUnlock => true
  | _ => false
  end.

Definition ctx (s : state) (r : request) : Prop :=
  s_action s = r_action r /\ firstn (s_len s) (s_buf s) = payload r.

Definition pc_ok (c : config) (s : state) (ph : phase) (o : op) (pc : cpc) : Prop :=
  match pc with
  | CLength => exists r, o = Submit r
  | CTask => exists r, o = Submit r /\ r_len r <= c_capacity c
  | CLock | CTest | CBusy => exists r, o = Submit r /\ r_len r <= c_capacity c /\ ph <> Off
  | CStatus | CAction => exists r, o = Submit r /\ r_len r <= c_capacity c /\ ph = Ready
  | CLen =>
      exists r, o = Submit r /\ r_len r <= c_capacity c /\ ph = Ready /\ s_action s = r_action r
  | CCopy i =>
      exists r d, o = Submit r /\ r_len r <= c_capacity c /\ ph = Ready /\
        s_action s = r_action r /\ r_data r = Some d /\ s_len s = r_len r /\ i <= r_len r /\
        firstn i (s_buf s) = firstn i d
  | NTask | NRunning | NNotifying | NFind =>
      exists r, o = Submit r /\ r_len r <= c_capacity c /\ ph = Ready /\ ctx s r
  | NClear st | NUnlock st | NCheck st | NGive st =>
      exists r, o = Submit r /\ st = Success /\ ph = Pending r
  | SLock | SBody | SUnlock _ => exists f, o = Locked f
  | CRet _ => True
  end.

Definition waiting (w : wpc) : Prop := w = WInitUnlock \/ w = WTake \/ w = WUnlock.
Definition no_post (s : state) : Prop :=
  forall t n o pc, s_clients s t = In n o pc -> post pc = false.

Definition phase_ok (c : config) (s : state) (ph : phase) : Prop :=
  match ph with
  | Off => s_task s = false /\ s_worker s = WStart /\ s_count s = 0 /\ s_running s = 0%Z
  | Down k =>
      s_task s = true /\ s_running s = 0%Z /\
      ((s_worker s = WStart /\ k = 0 /\ s_count s <= 1) \/
       (s_worker s = WPrep k /\ k <= length (c_handlers c) /\ s_count s = 0) \/
       ((s_worker s = WInitLock \/ s_worker s = WInitClear) /\ k = length (c_handlers c) /\
        s_count s = 0))
  | Ready => s_task s = true /\ s_running s = (-1)%Z /\ s_count s = 0 /\ waiting (s_worker s)
  | Pending r =>
      s_task s = true /\
      (exists i, s_running s = Z.of_nat i /\ nth_error (c_handlers c) i = Some (r_handler r)) /\
      ctx s r /\
      ((waiting (s_worker s) /\ s_count s = 0 /\
        exists t n o pc, s_clients s t = In n o pc /\ post pc = true) \/
       (waiting (s_worker s) /\ s_count s = 1 /\ no_post s) \/
       ((s_worker s = WLow \/ s_worker s = WHigh \/ s_worker s = WFetch) /\ s_count s = 0 /\
        no_post s))
  | Running r =>
      s_task s = true /\
      (exists i, s_running s = Z.of_nat i /\ nth_error (c_handlers c) i = Some (r_handler r)) /\
      ctx s r /\ s_count s = 0 /\
      match s_worker s with
      | WExec h | WSetLock h _ _ | WSetWrite h _ _ | WSetUnlock h => h = r_handler r
      | WReset _ | WLock | WClear => True
      | _ => False
      end
  end.

Definition owner_mem (s : state) (m : mem) : mem :=
  match s_lock s with
  | Some (ByClient t) =>
      match s_clients s t with
      | In _ (Submit r) pc => if written pc then begun r m else m
      | _ => m
      end
  | _ => m
  end.

Record Inv (c : config) (b : nat) (s : state) (ph : phase) (m : mem) : Prop := mkInv {
  i_lock_c : forall t n o pc, s_clients s t = In n o pc -> holds pc = true ->
      s_lock s = Some (ByClient t);
  i_lock_w : wholds (s_worker s) = true -> s_lock s = Some ByTask;
  i_lock : match s_lock s with
           | None => True
           | Some (ByClient t) => exists n o pc, s_clients s t = In n o pc /\ holds pc = true
           | Some ByTask => wholds (s_worker s) = true
           end;
  i_notif_t : forall t n o pc, s_clients s t = In n o pc -> filling pc = true ->
      s_notifying s = true;
  i_notif : s_notifying s = true ->
      exists t n o pc, s_clients s t = In n o pc /\ filling pc = true;
  i_pc : forall t n o pc, s_clients s t = In n o pc ->
      pc_ok c s ph o pc /\ proper_op (c_handlers c) o;
  i_post : forall t n o pc t' n' o' pc', s_clients s t = In n o pc -> post pc = true ->
      s_clients s t' = In n' o' pc' -> post pc' = true -> t' = t;
  i_phase : phase_ok c s ph;
  i_mem : s_mem s = owner_mem s m;
  i_buf : length (s_buf s) = c_capacity c;
  i_starts : 0 < b -> b = 1 /\ (ph = Off \/ ph = Down 0) /\ s_worker s = WStart /\ s_count s = 0
}.

(** ** Handlers *)
Lemma find_from_spec : forall h l i j, find_from h l i = Some j ->
  i <= j /\ nth_error l (j - i) = Some h.
Proof.
  induction l as [|x l IH]; cbn [find_from]; intros i j H; [discriminate|].
  destruct (Nat.eqb_spec x h) as [->|Hne].
  - injection H as <-. rewrite Nat.sub_diag. split; [lia|reflexivity].
  - apply IH in H. destruct H as [Hle Hn]. split; [lia|].
    replace (j - i) with (S (j - S i)) by lia. exact Hn.
Qed.

Lemma find_from_in : forall h l i, List.In h l -> exists j, find_from h l i = Some j.
Proof.
  induction l as [|x l IH]; cbn [find_from List.In]; intros i H; [contradiction|].
  destruct (Nat.eqb_spec x h); [eauto|]. destruct H as [->|H]; [congruence|]. apply IH, H.
Qed.

Lemma find_handler_spec : forall h l j, find_handler h l = Some j -> nth_error l j = Some h.
Proof.
  intros h l j H. apply find_from_spec in H. rewrite Nat.sub_0_r in H. tauto.
Qed.

Lemma find_handler_in : forall h l, List.In h l -> exists j, find_handler h l = Some j.
Proof. intros. apply find_from_in; auto. Qed.

(** ** Clients *)
Lemma set_same : forall cl t x, set_client cl t x t = x.
Proof. intros. unfold set_client. rewrite Nat.eqb_refl. reflexivity. Qed.
Lemma set_other : forall cl t x u, u <> t -> set_client cl t x u = cl u.
Proof. intros. unfold set_client. apply Nat.eqb_neq in H. rewrite H. reflexivity. Qed.

Lemma pc_ok_nohold : forall c s s' ph o pc, holds pc = false ->
  pc_ok c s ph o pc -> pc_ok c s' ph o pc.
Proof. intros c s s' ph o pc H. destruct pc; cbn in *; auto; discriminate. Qed.

Lemma pc_ok_same : forall c s s' ph o pc,
  s_action s' = s_action s -> s_len s' = s_len s -> s_buf s' = s_buf s ->
  pc_ok c s ph o pc -> pc_ok c s' ph o pc.
Proof.
  intros c s s' ph o pc H1 H2 H3. destruct pc; cbn [pc_ok]; unfold ctx;
    rewrite ?H1, ?H2, ?H3; auto.
Qed.

(** The phase changes, but no client is concerned. *)
Lemma pc_ok_phase : forall c s s' ph ph' o pc,
  ph' <> Off -> ph <> Ready \/ holds pc = false ->
  (forall r, ph = Pending r -> post pc = false) ->
  pc_ok c s ph o pc -> pc_ok c s' ph' o pc.
Proof.
  intros c s s' ph ph' o pc Ho Hr Hp H. destruct pc; cbn [pc_ok holds post] in *; auto;
    try (destruct H as (r & A & B & C); exists r; auto; fail);
    try (destruct H as (r & A & B & C); destruct Hr as [Hr|Hr]; [|discriminate];
         first [contradiction | destruct C as [C _]; contradiction]);
    try (destruct H as (r & A & B & C); specialize (Hp r C); discriminate).
  destruct H as (r & d & A & B & C & _). destruct Hr as [Hr|Hr]; [contradiction|discriminate].
Qed.

Definition same_ctx (s s' : state) : Prop :=
  s_action s' = s_action s /\ s_len s' = s_len s /\ s_buf s' = s_buf s.

Lemma ctx_same : forall s s' r, same_ctx s s' -> ctx s r -> ctx s' r.
Proof. intros s s' r (A & B & C). unfold ctx. rewrite A, B, C. auto. Qed.

(** A step of a client that leaves the phase alone.  [lk] says what it does to
    the lock. *)
Inductive lock_move (t : nat) (pc pc' : cpc) (l l' : option owner) : Prop :=
  | lm_keep : l' = l -> holds pc' = holds pc -> lock_move t pc pc' l l'
  | lm_take : l = None -> l' = Some (ByClient t) -> holds pc' = true -> lock_move t pc pc' l l'
  | lm_drop : l' = None -> holds pc = true -> holds pc' = false -> lock_move t pc pc' l l'.

Lemma client_frame : forall c b s ph m t n o pc s' pc' m',
  Inv c b s ph m -> s_clients s t = In n o pc ->
  s_clients s' = set_client (s_clients s) t (In n o pc') ->
  s_task s' = s_task s -> s_worker s' = s_worker s ->
  lock_move t pc pc' (s_lock s) (s_lock s') ->
  (same_ctx s s' \/ holds pc = true) ->
  length (s_buf s') = c_capacity c ->
  s_running s' = s_running s ->
  pc_ok c s' ph o pc' ->
  (s_notifying s' = s_notifying s /\ filling pc' = filling pc) \/
  (s_notifying s = false /\ s_notifying s' = true /\ filling pc' = true) \/
  (s_notifying s' = false /\ filling pc = true /\ filling pc' = false) ->
  (post pc = true \/ post pc' = true -> exists r, ph = Pending r) ->
  (post pc' = true -> post pc = true) ->
  (s_count s' = s_count s /\ post pc' = post pc \/
   s_count s' = S (s_count s) /\ post pc = true /\ post pc' = false) ->
  s_mem s' = owner_mem s' m' ->
  (forall r, ph = Pending r \/ ph = Running r -> same_ctx s s') ->
  Inv c b s' ph m'.
Proof.
  intros c b s ph m t n o pc s' pc' m' I Hc Ecl Et Ew Elk Ectx Ebuf Erun Hpc Hnot Hpost1 Hpost2
    Hcnt Hmem Hctx2.
  destruct I as [IL1 IL2 IL IN1 IN2 IP IPO IPH IM IB IS].
  assert (Ct : s_clients s' t = In n o pc') by (rewrite Ecl; apply set_same).
  assert (Cu : forall u, u <> t -> s_clients s' u = s_clients s u)
    by (intros; rewrite Ecl; apply set_other; auto).
  assert (Hex : forall u, u <> t -> forall n1 o1 pc1, s_clients s u = In n1 o1 pc1 ->
            holds pc1 = true -> holds pc = false).
  { intros u Hu n1 o1 pc1 H1 H2. destruct (holds pc) eqn:E; [|reflexivity].
    pose proof (IL1 _ _ _ _ Hc E) as A. pose proof (IL1 _ _ _ _ H1 H2) as B. congruence. }
  constructor.
  - intros u n1 o1 pc1 H1 H2. destruct (Nat.eq_dec u t) as [->|Hu].
    + rewrite Ct in H1. injection H1 as <- <- <-.
      destruct Elk as [E1 E2|E1 E2 E3|E1 E2 E3]; [|assumption|congruence].
      rewrite E1. eapply IL1; [exact Hc|congruence].
    + rewrite Cu in H1 by assumption. pose proof (IL1 _ _ _ _ H1 H2) as A.
      destruct Elk as [E1 E2|E1 E2 E3|E1 E2 E3]; [congruence|congruence|].
      pose proof (Hex u Hu _ _ _ H1 H2). congruence.
  - rewrite Ew. intros H. pose proof (IL2 H) as A.
    destruct Elk as [E1 E2|E1 E2 E3|E1 E2 E3]; [congruence|congruence|].
    pose proof (IL1 _ _ _ _ Hc E2). congruence.
  - destruct Elk as [E1 E2|E1 E2 E3|E1 E2 E3].
    + rewrite E1. destruct (s_lock s) as [[u|]|]; [|rewrite Ew; exact IL|exact Logic.I].
      destruct (Nat.eq_dec u t) as [->|Hu].
      * destruct IL as (n1 & o1 & pc1 & A & B). rewrite Hc in A. injection A as <- <- <-.
        exists n, o, pc'. split; [exact Ct|congruence].
      * rewrite Cu by assumption. exact IL.
    + rewrite E2. exists n, o, pc'. auto.
    + rewrite E1. exact Logic.I.
  - intros u n1 o1 pc1 H1 H2. destruct (Nat.eq_dec u t) as [->|Hu].
    + rewrite Ct in H1. injection H1 as <- <- <-.
      destruct Hnot as [[A B]|[(A & B & C)|(A & B & C)]]; [|assumption|congruence].
      rewrite A. eapply IN1; [exact Hc|congruence].
    + rewrite Cu in H1 by assumption.
      destruct Hnot as [[A B]|[(A & B & C)|(A & B & C)]].
      * rewrite A. eapply IN1; eauto.
      * exact B.
      * exfalso. assert (holds pc = true) by (destruct pc; cbn in *; congruence).
        assert (holds pc1 = true) by (destruct pc1; cbn in *; congruence).
        pose proof (Hex u Hu _ _ _ H1 H0). congruence.
  - intros H. destruct Hnot as [[A B]|[(A & B & C)|(A & B & C)]].
    + rewrite A in H. destruct (IN2 H) as (u & n1 & o1 & pc1 & D & E).
      destruct (Nat.eq_dec u t) as [->|Hu].
      * rewrite Hc in D. injection D as <- <- <-. exists t, n, o, pc'. split; [exact Ct|congruence].
      * exists u, n1, o1, pc1. rewrite Cu by assumption. auto.
    + exists t, n, o, pc'. auto.
    + congruence.
  - intros u n1 o1 pc1 H1. destruct (Nat.eq_dec u t) as [->|Hu].
    + rewrite Ct in H1. injection H1 as <- <- <-. split; [exact Hpc|]. eapply IP; eauto.
    + rewrite Cu in H1 by assumption. destruct (IP _ _ _ _ H1) as [A B]. split; [|exact B].
      destruct Ectx as [(E1 & E2 & E3)|E].
      * eapply pc_ok_same; eauto.
      * eapply pc_ok_nohold; [|exact A]. destruct (holds pc1) eqn:Eh; [|reflexivity].
        pose proof (Hex u Hu _ _ _ H1 Eh). congruence.
  - intros u n1 o1 pc1 v n2 o2 pc2 H1 P1 H2 P2.
    destruct (Nat.eq_dec u t) as [->|Hu]; destruct (Nat.eq_dec v t) as [->|Hv]; auto.
    + rewrite Ct in H1. injection H1 as <- <- <-. rewrite Cu in H2 by assumption.
      eapply IPO with (t := t) (t' := v); eauto.
    + rewrite Ct in H2. injection H2 as <- <- <-. rewrite Cu in H1 by assumption.
      eapply IPO with (t := u) (t' := t); eauto.
    + rewrite Cu in H1 by assumption. rewrite Cu in H2 by assumption.
      eapply IPO with (t := u) (t' := v); eauto.
  - assert (Hnp : forall r, ph = Pending r ->
              (no_post s -> post pc' = post pc -> no_post s')).
    { intros r Hr Hn He u n1 o1 pc1 H1. destruct (Nat.eq_dec u t) as [->|Hu].
      - rewrite Ct in H1. injection H1 as <- <- <-. rewrite He. eapply Hn; eauto.
      - rewrite Cu in H1 by assumption. eapply Hn; eauto. }
    destruct ph as [|k| |r|r]; cbn [phase_ok] in *; rewrite ?Et, ?Ew, ?Erun.
    + destruct IPH as (A & B & C & D). destruct Hcnt as [[E _]|(E & F & G)].
      * rewrite E. auto.
      * destruct (Hpost1 (or_introl F)) as [r Hr]. discriminate.
    + destruct IPH as (A & B & C). destruct Hcnt as [[E _]|(E & F & G)].
      * rewrite E. auto.
      * destruct (Hpost1 (or_introl F)) as [r Hr]. discriminate.
    + destruct IPH as (A & B & C & D). destruct Hcnt as [[E _]|(E & F & G)].
      * rewrite E. auto.
      * destruct (Hpost1 (or_introl F)) as [r Hr]. discriminate.
    + destruct IPH as (A & B & C & D). split; [exact A|]. split; [exact B|].
      split; [eapply ctx_same; eauto|].
      destruct Hcnt as [[E F]|(E & F & G)].
      * rewrite E. destruct D as [(D1 & D2 & u & n1 & o1 & pc1 & D3 & D4)|[(D1 & D2 & D3)|(D1 & D2 & D3)]].
        -- left. split; [exact D1|]. split; [exact D2|].
           destruct (Nat.eq_dec u t) as [->|Hu].
           ++ rewrite Hc in D3. injection D3 as <- <- <-.
              exists t, n, o, pc'. split; [exact Ct|congruence].
           ++ exists u, n1, o1, pc1. rewrite Cu by assumption. auto.
        -- right. left. eauto.
        -- right. right. eauto.
      * rewrite E. destruct D as [(D1 & D2 & u & n1 & o1 & pc1 & D3 & D4)|[(D1 & D2 & D3)|(D1 & D2 & D3)]].
        -- right. left. split; [exact D1|]. split; [lia|].
           intros v n2 o2 pc2 H2. destruct (post pc2) eqn:P2; [|reflexivity]. exfalso.
           destruct (Nat.eq_dec v t) as [->|Hv].
           ++ rewrite Ct in H2. injection H2 as <- <- <-. congruence.
           ++ rewrite Cu in H2 by assumption. apply Hv.
              eapply IPO with (t := t) (t' := v); eauto.
        -- specialize (D3 _ _ _ _ Hc). congruence.
        -- specialize (D3 _ _ _ _ Hc). congruence.
    + destruct IPH as (A & B & C & D & E'). split; [exact A|]. split; [exact B|].
      split; [eapply ctx_same; eauto|].
      destruct Hcnt as [[E F]|(E & F & G)].
      * rewrite E. auto.
      * destruct (Hpost1 (or_introl F)) as [r' Hr]. discriminate.
  - exact Hmem.
  - exact Ebuf.
  - intros Hb. destruct (IS Hb) as (A & B & C & D). split; [exact A|]. split; [exact B|].
    split; [congruence|]. destruct Hcnt as [[E _]|(E & F & G)]; [congruence|].
    destruct (Hpost1 (or_introl F)) as [r Hr]. destruct B; congruence.
Qed.
