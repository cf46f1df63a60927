(** Invariants of the command channel. *)
From Coq Require Import List NArith Bool Arith Lia.
From Verif Require Import Base CmdChannel_Model CmdChannel_Spec.
Import ListNotations.

Lemma mine_app : forall i a b, mine i (a ++ b) = mine i a ++ mine i b.
Proof. intros. unfold mine. now rewrite filter_app, map_app. Qed.
Lemma mine_one : forall i j p, mine i [(j, p)] = if Nat.eqb j i then [p] else [].
Proof. intros. unfold mine. cbn. destruct (Nat.eqb j i); reflexivity. Qed.

Definition thread_ok (m : message) (sent : list packet) (p : phase) : Prop :=
  match p with
  | Ready => sent = []
  | Holding rest | Sleeping rest => rest <> [] /\ cut m sent rest
  | Finished Ok => cut m sent []
  | Finished Expired => sent = []
  | Finished _ => exists rest, rest <> [] /\ cut m sent rest
  end.

Record inv (msgs : nat -> message) (s : chan) : Prop := {
  i_lock : forall i, lock s = Some i <-> exists rest, phases s i = Holding rest;
  i_thread : forall i, thread_ok (msgs i) (mine i (wire s)) (phases s i)
}.

Lemma cut_nil : forall m, cut m [] (data m).
Proof. intros. split; [reflexivity|]. intros [|j] p H; discriminate. Qed.

Lemma cut_len : forall m ps rest, (0 < psize m)%nat -> rest <> [] -> cut m ps rest -> length rest = (length (data m) - length ps * psize m)%nat.
Proof.
  intros m ps rest P NE [C L]. rewrite <- C in *. rewrite app_length in *.
  assert (length (concat (map p_data ps)) = (length ps * psize m)%nat) as E; [|lia].
  assert (0 < length rest)%nat as R by (destruct rest; [contradiction|cbn; lia]).
  set (T := length rest) in *. clearbody T. clear C NE rest.
  assert (forall k, (k <= length ps)%nat -> length (concat (map p_data (firstn k ps))) = (k * psize m)%nat) as K.
  { induction k as [|k IH]; intros Hk; [reflexivity|].
    destruct (nth_error ps k) as [p|] eqn:EN; [|apply nth_error_None in EN; lia].
    rewrite <- (firstn_skipn k ps) in EN. rewrite nth_error_app2 in EN by (rewrite firstn_length; lia).
    rewrite firstn_length, Nat.min_l, Nat.sub_diag in EN by lia.
    destruct (skipn k ps) as [|q t] eqn:ES; [discriminate|]. cbn in EN. injection EN as ->.
    assert (firstn (S k) ps = firstn k ps ++ [p]) as ->.
    { rewrite <- (firstn_skipn k ps) at 1. rewrite ES. rewrite firstn_app, firstn_length, Nat.min_l by lia.
      replace (S k - k)%nat with 1%nat by lia. rewrite firstn_firstn, Nat.min_r by lia. reflexivity. }
    rewrite map_app, concat_app, app_length, IH by lia. cbn [map concat]. rewrite app_nil_r.
    assert (nth_error ps k = Some p) as EN.
    { rewrite <- (firstn_skipn k ps), nth_error_app2 by (rewrite firstn_length; lia).
      rewrite firstn_length, Nat.min_l, Nat.sub_diag, ES by lia. reflexivity. }
    destruct (L k p EN) as (_ & NE & Q).
    assert (0 < length (p_data p))%nat by (destruct (p_data p); [contradiction|cbn; lia]).
    (* what is left before this packet is at least a packet, because something is left at the end *)
    assert (length (concat (map p_data ps)) = (k * psize m + length (concat (map p_data (skipn k ps))))%nat) as SPL.
    { rewrite <- (firstn_skipn k ps) at 1. rewrite map_app, concat_app, app_length, IH by lia. reflexivity. }
    assert (length (p_data p) <= length (concat (map p_data (skipn k ps))))%nat by (rewrite ES; cbn; rewrite app_length; lia).
    lia. }
  specialize (K (length ps) (Nat.le_refl _)). now rewrite firstn_all in K.
Qed.

Lemma cut_snoc : forall m ps rest, (0 < psize m)%nat -> rest <> [] -> cut m ps rest ->
  cut m (ps ++ [{| p_dest := dest m; p_data := firstn (Nat.min (psize m) (length rest)) rest |}])
    (skipn (Nat.min (psize m) (length rest)) rest).
Proof.
  intros m ps rest P NE C. pose proof (cut_len _ _ _ P NE C) as L. destruct C as [C Q]. split.
  - rewrite map_app, concat_app. cbn [map concat p_data]. rewrite app_nil_r, <- app_assoc, firstn_skipn. exact C.
  - intros j p H. destruct (Nat.lt_ge_cases j (length ps)) as [J|J].
    + rewrite nth_error_app1 in H by auto. auto.
    + rewrite nth_error_app2 in H by auto. destruct (j - length ps)%nat as [|k] eqn:E; [|destruct k; discriminate].
      cbn in H. injection H as <-. cbn [p_dest p_data]. assert (j = length ps) as -> by lia.
      split; [reflexivity|]. split.
      * intros Z. apply (f_equal (@length N)) in Z. rewrite firstn_length in Z. cbn in Z. 
        assert (0 < length rest)%nat by (destruct rest; [contradiction|cbn; lia]). lia.
      * rewrite firstn_length. lia.
Qed.

Lemma set_same : forall f i p, set_phase f i p i = p.
Proof. intros. unfold set_phase. now rewrite Nat.eqb_refl. Qed.
Lemma set_other : forall f i j p, j <> i -> set_phase f i p j = f j.
Proof. intros. unfold set_phase. destruct (Nat.eqb_spec j i); [contradiction|reflexivity]. Qed.

(** The task [i] that has the lock gives it up. *)
Lemma inv_leave : forall msgs s i p w, inv msgs s -> lock s = Some i -> (forall r, p <> Holding r) ->
  (forall j, j <> i -> mine j w = mine j (wire s)) -> thread_ok (msgs i) (mine i w) p ->
  inv msgs {| lock := None; phases := set_phase (phases s) i p; wire := w |}.
Proof.
  intros msgs s i p w H L P O T. split; cbn [lock phases wire]; intros j.
  - split; [discriminate|]. intros [r R]. destruct (Nat.eq_dec j i) as [->|D].
    + rewrite set_same in R. now apply P in R.
    + rewrite set_other in R by auto. assert (lock s = Some j) by (apply (i_lock _ _ H); eauto). congruence.
  - destruct (Nat.eq_dec j i) as [->|D]; [now rewrite set_same|]. rewrite set_other, O by auto. apply H.
Qed.

(** The task [i] takes or keeps the lock. *)
Lemma inv_hold : forall msgs s i rest w, inv msgs s -> (lock s = None \/ lock s = Some i) ->
  (forall j, j <> i -> mine j w = mine j (wire s)) -> thread_ok (msgs i) (mine i w) (Holding rest) ->
  inv msgs {| lock := Some i; phases := set_phase (phases s) i (Holding rest); wire := w |}.
Proof.
  intros msgs s i rest w H L O T. split; cbn [lock phases wire]; intros j.
  - destruct (Nat.eq_dec j i) as [->|D].
    + rewrite set_same. split; eauto.
    + rewrite set_other by auto. split; [congruence|]. intros R.
      assert (lock s = Some j) by (apply (i_lock _ _ H); auto). destruct L; congruence.
  - destruct (Nat.eq_dec j i) as [->|D]; [now rewrite set_same|]. rewrite set_other, O by auto. apply H.
Qed.

(** The task [i] ends without ever having the lock for long. *)
Lemma inv_end : forall msgs s i p, inv msgs s -> lock s = None -> (forall r, p <> Holding r) ->
  thread_ok (msgs i) (mine i (wire s)) p ->
  inv msgs {| lock := None; phases := set_phase (phases s) i p; wire := wire s |}.
Proof.
  intros msgs s i p H L P T. split; cbn [lock phases wire]; intros j.
  - split; [discriminate|]. intros [r R]. destruct (Nat.eq_dec j i) as [->|D].
    + rewrite set_same in R. now apply P in R.
    + rewrite set_other in R by auto. assert (lock s = Some j) by (apply (i_lock _ _ H); eauto). congruence.
  - destruct (Nat.eq_dec j i) as [->|D]; [now rewrite set_same|]. rewrite set_other by auto. apply H.
Qed.

Lemma inv_init : forall msgs, inv msgs init.
Proof.
  intros. split; intros i; cbn.
  - split; [discriminate|]. intros [r R]. discriminate.
  - reflexivity.
Qed.

Lemma inv_step : forall limit msgs a s s' b, (forall i, (0 < psize (msgs i))%nat) -> inv msgs s ->
  step limit msgs a s = Some (s', b) -> inv msgs s'.
Proof.
  intros limit msgs a s s' b P H ST. destruct a as [i over|i o]; cbn [step] in ST.
  - destruct (lock s) eqn:L; [discriminate|]. pose proof (i_thread _ _ H i) as T.
    destruct (phases s i) as [|rest|rest|st] eqn:PH; try discriminate; unfold with_phase in ST.
    + destruct over; [injection ST as <- _; apply inv_end; auto; discriminate|]. cbn in T.
      destruct (data (msgs i)) as [|x t] eqn:D; injection ST as <- _.
      * apply inv_end; auto; [discriminate|]. cbn. rewrite T, <- D. apply cut_nil.
      * apply inv_hold; auto. cbn. rewrite T, <- D. split; [rewrite D; discriminate|apply cut_nil].
    + injection ST as <- _. apply inv_hold; auto.
  - destruct (lock s) as [k|] eqn:L; [|discriminate]. pose proof (i_thread _ _ H i) as T.
    destruct (phases s i) as [|rest|rest|st] eqn:PH; try discriminate.
    destruct (Nat.eqb_spec k i) as [->|]; [|discriminate]. cbn in T. destruct T as [NE C].
    destruct o as [|over|].
    + assert (forall j, j <> i -> mine j (wire s ++ [(i, {| p_dest := dest (msgs i); p_data := firstn (Nat.min (psize (msgs i)) (length rest)) rest |})]) = mine j (wire s)) as O.
      { intros j D. rewrite mine_app, mine_one. destruct (Nat.eqb_spec i j); [congruence|]. apply app_nil_r. }
      pose proof (cut_snoc _ _ _ (P i) NE C) as C'.
      assert (mine i (wire s ++ [(i, {| p_dest := dest (msgs i); p_data := firstn (Nat.min (psize (msgs i)) (length rest)) rest |})]) =
        mine i (wire s) ++ [{| p_dest := dest (msgs i); p_data := firstn (Nat.min (psize (msgs i)) (length rest)) rest |}]) as M
        by (now rewrite mine_app, mine_one, Nat.eqb_refl).
      rewrite <- M in C'. unfold with_phase in ST. cbn [wire phases] in ST.
      destruct (skipn (Nat.min (psize (msgs i)) (length rest)) rest) as [|x t] eqn:E; injection ST as <- _.
      * apply inv_leave; auto; discriminate.
      * apply inv_hold; auto. cbn [thread_ok]. split; [discriminate|auto].
    + destruct over; injection ST as <- _; apply inv_leave; auto; try discriminate; cbn; eauto.
    + injection ST as <- _; apply inv_leave; auto; try discriminate; cbn; eauto.
Qed.

Lemma inv_run : forall limit msgs, (forall i, (0 < psize (msgs i))%nat) -> forall l s b s' b', inv msgs s ->
  run limit msgs l s b = Some (s', b') -> inv msgs s'.
Proof.
  intros limit msgs P. induction l as [|a t IH]; intros s b s' b' H R; cbn [run] in R.
  - injection R as <- _. exact H.
  - destruct (step limit msgs a s) as [[s1 b1]|] eqn:ST; [|discriminate]. eapply IH; [|exact R]. eapply inv_step; eauto.
Qed.

Lemma step_bad : forall limit msgs a s s' b, (forall i, psize (msgs i) <= limit)%nat -> step limit msgs a s = Some (s', b) -> b = false.
Proof.
  intros limit msgs a s s' b P ST. destruct a as [i over|i o]; cbn [step] in ST.
  - destruct (lock s), (phases s i), over, (data (msgs i)); try discriminate; now injection ST as _ <-.
  - destruct (lock s) as [k|]; [|discriminate]. destruct (phases s i) as [|rest|rest|st]; try discriminate.
    destruct (Nat.eqb k i); [|discriminate].
    assert (Nat.ltb limit (Nat.min (psize (msgs i)) (length rest)) = false) as E by (apply Nat.ltb_ge; specialize (P i); lia).
    rewrite E in ST. destruct o as [|[]|]; [|now injection ST as _ <-..].
    destruct (skipn _ rest); now injection ST as _ <-.
Qed.

Lemma run_bad : forall limit msgs, (forall i, psize (msgs i) <= limit)%nat -> forall l s b s' b',
  run limit msgs l s b = Some (s', b') -> b' = b.
Proof.
  intros limit msgs P. induction l as [|a t IH]; intros s b s' b' R; cbn [run] in R.
  - now injection R as _ <-.
  - destruct (step limit msgs a s) as [[s1 b1]|] eqn:ST; [|discriminate]. apply (step_bad _ _ _ _ _ _ P) in ST. subst.
    apply IH in R. now rewrite orb_false_r in R.
Qed.

(** ** Contiguity *)

Definition tail_of (i : nat) (w : list (nat * packet)) : Prop := exists l ps, w = l ++ map (pair i) ps /\ mine i l = [].

Definition cont (i : nat) (s : chan) : Prop :=
  match phases s i with
  | Ready => mine i (wire s) = []
  | Holding _ => tail_of i (wire s)
  | Sleeping _ => False
  | Finished _ => contiguous i (wire s)
  end.

Lemma tail_contiguous : forall i w, tail_of i w -> contiguous i w.
Proof. intros i w (l & ps & -> & M). exists l, [], ps. now rewrite app_nil_r. Qed.
Lemma none_contiguous : forall i w, mine i w = [] -> contiguous i w.
Proof. intros i w M. exists w, [], []. cbn. now rewrite app_nil_r. Qed.
Lemma contiguous_other : forall i j w p, j <> i -> contiguous i w -> contiguous i (w ++ [(j, p)]).
Proof.
  intros i j w p D (l1 & l2 & ps & -> & M1 & M2). exists l1, (l2 ++ [(j, p)]), ps. rewrite !app_assoc. split; [reflexivity|].
  split; [auto|]. rewrite mine_app, M2, mine_one. destruct (Nat.eqb_spec j i); [contradiction|reflexivity].
Qed.

Lemma cont_step : forall limit msgs a s s' b i, inv msgs s -> cont i s -> a <> Send i (Busy false) ->
  step limit msgs a s = Some (s', b) -> cont i s'.
Proof.
  intros limit msgs a s s' b i H C NB ST. unfold cont in *. destruct a as [k over|k o]; cbn [step] in ST.
  - destruct (lock s) eqn:L; [discriminate|]. destruct (Nat.eq_dec k i) as [->|D].
    + destruct (phases s i) as [|rest|rest|st] eqn:PH; try discriminate; [|contradiction].
      assert (tail_of i (wire s)) as T by (exists (wire s), []; cbn; now rewrite app_nil_r).
      destruct over; [injection ST as <- _; cbn; rewrite set_same; now apply none_contiguous|].
      destruct (data (msgs i)); injection ST as <- _; cbn; rewrite set_same; [now apply none_contiguous|exact T].
    + assert (wire s' = wire s /\ phases s' i = phases s i) as [-> ->]; [|exact C].
      destruct (phases s k) as [|rest|rest|st] eqn:PH; try discriminate.
      * destruct over; [injection ST as <- _; cbn; rewrite set_other by auto; auto|].
        destruct (data (msgs k)); injection ST as <- _; cbn; rewrite set_other by auto; auto.
      * injection ST as <- _; cbn; rewrite set_other by auto; auto.
  - destruct (lock s) as [q|] eqn:L; [|discriminate].
    destruct (phases s k) as [|rest|rest|st] eqn:PH; try discriminate.
    destruct (Nat.eqb_spec q k) as [->|]; [|discriminate]. destruct (Nat.eq_dec k i) as [->|D].
    + rewrite PH in C. destruct o as [|[]|].
      * assert (tail_of i (wire s ++ [(i, {| p_dest := dest (msgs i); p_data := firstn (Nat.min (psize (msgs i)) (length rest)) rest |})])) as T.
        { destruct C as (l & ps & -> & M). eexists l, (ps ++ [_]). rewrite map_app, app_assoc. split; [reflexivity|auto]. }
        destruct (skipn _ rest); injection ST as <- _; cbn; rewrite set_same; [now apply tail_contiguous|exact T].
      * injection ST as <- _. cbn. rewrite set_same. now apply tail_contiguous.
      * contradiction.
      * injection ST as <- _. cbn. rewrite set_same. now apply tail_contiguous.
    + assert (phases s' i = phases s i /\ (wire s' = wire s \/ exists p, wire s' = wire s ++ [(k, p)])) as [-> W].
      { destruct o as [|[]|].
        - destruct (skipn _ rest); injection ST as <- _; cbn; rewrite set_other by auto; eauto.
        - injection ST as <- _; cbn; rewrite set_other by auto; auto.
        - injection ST as <- _; cbn; rewrite set_other by auto; auto.
        - injection ST as <- _; cbn; rewrite set_other by auto; auto. }
      destruct W as [->|[p ->]]; [exact C|]. destruct (phases s i) as [|r|r|st] eqn:PI.
      * rewrite mine_app, C, mine_one. destruct (Nat.eqb_spec k i); [contradiction|reflexivity].
      * assert (lock s = Some i) by (apply (i_lock _ _ H); eauto). congruence.
      * exact C.
      * now apply contiguous_other.
Qed.

Lemma cont_run : forall limit msgs i, (forall i, (0 < psize (msgs i))%nat) -> forall l s b s' b', inv msgs s -> cont i s ->
  never_busy i l -> run limit msgs l s b = Some (s', b') -> cont i s'.
Proof.
  intros limit msgs i P. induction l as [|a t IH]; intros s b s' b' H C NB R; cbn [run] in R.
  - injection R as <- _. exact C.
  - destruct (step limit msgs a s) as [[s1 b1]|] eqn:ST; [|discriminate]. 
    assert (a <> Send i (Busy false)) as NA by (intros ->; apply NB; now left).
    eapply IH; [eapply inv_step; eauto|eapply cont_step; eauto| |exact R]. intros X. apply NB. now right.
Qed.

(** ** Receiving *)

Lemma receive_nth : forall l ov k, nth_error (receive_all ov l) k =
  match nth_error l k with
  | None => None
  | Some Overflow => Some Rejected
  | Some _ => Some (if match k with O => ov | S j => match nth_error l j with Some Overflow => true | _ => false end end then Ignored else Processed)
  end.
Proof.
  induction l as [|p t IH]; intros ov k; [destruct k; reflexivity|]. cbn [receive_all].
  destruct (receive ov p) as [ov' v] eqn:E. destruct k as [|k]; cbn [nth_error].
  - unfold receive in E. destruct p, ov; injection E as <- <-; reflexivity.
  - rewrite IH. unfold receive in E. destruct (nth_error t k) as [q|]; [|reflexivity].
    destruct q; [| |reflexivity]; destruct k as [|j]; cbn [nth_error]; try reflexivity; destruct p, ov; injection E as <- <-; reflexivity.
Qed.
