(** Runs and whole lives of the cache. *)
From Coq Require Import List NArith Bool Arith Lia Permutation ZifyBool ZifyNat ZifyN.
From Verif Require Import Base KeyCache_Model KeyCache_Spec KeyCache_Proofs KeyCache_Init_Proofs.
Import ListNotations.

(** A cache that is not initialised refuses everything. *)
Lemma down_run : forall g ops c s, inited c = false ->
  Forall2 (fun o v => result v = refuses o /\ up v = false) ops (run g c s ops).
Proof.
  intros g ops. induction ops as [|o t IH]; intros c s H; [constructor|].
  cbn [run]. destruct (do_call g c s o) as [[c' s'] r] eqn:E.
  assert (Hr : r = refuses o /\ c' = c /\ s' = s).
  { destruct o as [key w|q b f e]; cbn [do_call] in E.
    - unfold add in E. rewrite H in E. destruct key; cbn in E; injection E as <- <- <-; auto.
    - unfold remove in E. rewrite H in E. cbn in E. injection E as <- <- <-. auto. }
  destruct Hr as (-> & -> & ->). constructor; [cbn; auto | apply IH, H].
Qed.

Lemma run_agrees : forall g ops c s L, geometry_ok g -> rep g c s L -> inited c = true ->
  agrees g L ops (run g c s ops).
Proof.
  intros g ops. induction ops as [|o t IH]; intros c s L G HR Hin; [exact I|].
  cbn [run agrees]. destruct (do_call g c s o) as [[c' s'] r] eqn:E.
  assert (HS : (r = fst (ledger_step g L o) /\ rep g c' s' (snd (ledger_step g L o)) /\
     (inited c' = true \/ (inited c' = false /\ device_failed o = true))) \/
     (r = (MemoryCorrupted, []) /\ add_when_full L o /\ inited c' = false)).
  { destruct o as [key w|q b f e]; cbn [do_call] in E.
    - destruct (add g c s key w) as [[c1 s1] r1] eqn:EA. injection E as <- <- <-.
      eapply add_step in EA; eauto. destruct EA as [EA|(-> & E2 & E3)]; [left; exact EA | right; auto].
    - left. eapply remove_step; eauto. }
  destruct (ledger_step g L o) as [r' L'] eqn:EL. cbn [fst snd result up full empty] in *.
  destruct HS as [(-> & HR' & HU) | (-> & HF & HU)].
  - destruct HU as [HU|[HU HD]]; rewrite HU.
    + split; [reflexivity|]. rewrite (is_full_spec g c' s' L' G HR'), (is_empty_spec g c' s' L' G HR').
      cbn [snd]. pose proof (r_tot _ _ _ _ HR') as HT. splits.
      * destruct (debts L'); cbn [length] in HT; lia.
      * reflexivity.
      * apply IH; auto.
    + split; [left; auto|]. apply down_run, HU.
  - rewrite HU. split; [right; auto | apply down_run, HU].
Qed.

(** What every state in the life of a cache has in common. *)
Definition built (g : geometry) (c : cache) : Prop :=
  length (infos c) = S_ g /\ length (credits c) = R g /\ forall r, r < R g -> nth r (credits c) 0 <= C g.

Lemma built_same : forall g c c', built g c -> length (infos c') = length (infos c) -> credits c' = credits c -> built g c'.
Proof. intros g c c' (A & B & D) H1 H2. unfold built. rewrite H1, H2. auto. Qed.

Lemma built_credit : forall g c i v, built g c -> v <= C g -> built g (set_credits c (upd (credits c) i v)).
Proof.
  intros g c i v (A & B & D) Hv. unfold built. cbn. splits; auto; [rewrite length_upd; exact B|].
  intros r Hr. destruct (Nat.eq_dec i r) as [->|Hn].
  - rewrite nth_upd_eq by lia. exact Hv.
  - rewrite nth_upd_neq by exact Hn. auto.
Qed.

Lemma built_slot : forall g c i x, built g c -> built g (set_slot c i x).
Proof. intros. eapply built_same; [eassumption | apply infos_set_slot | reflexivity]. Qed.

Lemma built_increment : forall g c i n c' j, built g c -> increment c i n = (c', j) -> built g c'.
Proof.
  intros g c i n c' j H E. unfold increment in E. destruct (i <? n); injection E as <- <-; auto.
Qed.

Lemma built_decrement : forall g c i n c' j, built g c -> decrement c i n = (c', j) -> built g c'.
Proof.
  intros g c i n c' j H E. unfold decrement in E. destruct (i =? 0), (i <? n); injection E as <- <-; auto.
Qed.

Lemma built_replace : forall g c i, built g c -> built g (replace_block g c i).
Proof.
  intros g c i H. unfold replace_block. destruct (free_i c <=? num_keys g); [exact H|].
  eapply (built_same g (set_slot (set_slot c i _) (free_i c) _)); [|reflexivity..].
  apply built_slot, built_slot, H.
Qed.

Lemma built_release : forall g c r, built g c -> (r < N.of_nat (R g))%N -> built g (release_slot g c r).
Proof.
  intros g c r H Hr. unfold release_slot.
  set (c1 := if 0 <? _ then _ else c).
  assert (H1 : built g c1).
  { unfold c1. destruct (0 <? nth (N.to_nat r) (credits c) 0); [|exact H]. apply built_credit; [exact H|].
    destruct H as (_ & _ & D). pose proof (D (N.to_nat r)). lia. }
  destruct (decrement c1 (rem_i c) (num_keys g)) as [c2 p] eqn:ED. eapply built_decrement in ED; [|exact H1].
  destruct (increment _ (rem_i c) (num_keys g)) as [c5 n] eqn:EI.
  eapply built_increment in EI; [|apply built_slot, built_slot, ED]. exact EI.
Qed.

Lemma built_add : forall g c s key w c' s' r, built g c -> add g c s key w = (c', s', r) -> built g c'.
Proof.
  intros g c s key w c' s' r H E. unfold add in E.
  destruct (length key =? 0); [injection E as <- <- <-; exact H|].
  destruct (negb (inited c)); [injection E as <- <- <-; exact H|].
  destruct (error_state c); [injection E as <- <- <-; exact H|].
  destruct (num_keys g <=? add_i c); [injection E as <- <- <-; exact H|].
  destruct (N.leb (N.of_nat (R g)) (req (slot c (add_i c)))); [injection E as <- <- <-; exact H|].
  destruct (N.leb (N.of_nat (S_ g)) (phys (slot c (add_i c)))); [injection E as <- <- <-; exact H|].
  unfold is_full in E. destruct (increment c (add_i c) (num_keys g)) as [c0 n] eqn:EI.
  eapply built_increment in EI; [|exact H].
  destruct (n =? rem_i c0); [injection E as <- <- <-; exact EI|].
  destruct (write_attempts MAX_RETRY s (phys (slot c (add_i c))) key w) as [s1 []].
  - set (c1 := if _ <? C g then _ else c0) in E.
    assert (H1 : built g c1).
    { unfold c1. destruct (_ <? C g) eqn:EC; [|exact EI]. apply built_credit; [exact EI|]. lia. }
    destruct (increment (set_slot c1 _ _) (add_i c) (num_keys g)) as [c3 m] eqn:E3.
    eapply built_increment in E3; [|apply built_slot, H1]. injection E as <- <- <-. exact E3.
  - injection E as <- <- <-. apply built_replace, EI.
Qed.

Lemma built_remove : forall g c s q b f e c' s' r, built g c -> remove g c s q b f e = (c', s', r) -> built g c'.
Proof.
  intros g c s q b f e c' s' r H E. unfold remove in E.
  destruct (negb (inited c)); [injection E as <- <- <-; exact H|].
  destruct (error_state c); [injection E as <- <- <-; exact H|].
  destruct (N.leb (N.of_nat (R g)) q) eqn:EQ; [injection E as <- <- <-; exact H|].
  assert (Hq : (q < N.of_nat (R g))%N) by lia.
  destruct (num_keys g <? rem_i c); [injection E as <- <- <-; exact H|].
  destruct (is_empty c); [injection E as <- <- <-; exact H|].
  assert (HB : built g (release_slot g c q)) by (apply built_release; assumption).
  destruct (valid (slot c (rem_i c))); [injection E as <- <- <-; exact HB| |injection E as <- <- <-; exact HB].
  destruct (N.leb (N.of_nat (S_ g)) (phys (slot c (rem_i c)))); [injection E as <- <- <-; exact H|].
  destruct (nth (N.to_nat q) (credits c) 0 =? 0); [injection E as <- <- <-; exact H|].
  destruct (try_erase s (phys (slot c (rem_i c))) e) as [s1 v]. injection E as <- <- <-.
  apply built_release; [|exact Hq]. destruct v; auto using built_replace.
Qed.

Lemma built_initialize : forall g c s k c' s' st, geometry_ok g -> built g c -> initialize g c s k = (c', s', st) ->
  built g c'.
Proof.
  intros g c s k c' s' st G (A & B & D) E. apply initialize_spec in E; auto. unfold built. tauto.
Qed.

Lemma built_step : forall g c s e c' s' o, geometry_ok g -> built g c -> ev_step g c s e = (c', s', o) -> built g c'.
Proof.
  intros g c s e c' s' o G H E. destruct e as [b|k|call|k gen w]; cbn [ev_step] in E.
  - unfold init_state in E. destruct (_ || _); [injection E as <- <- <-; exact H|].
    destruct (_ <? num_keys g); [injection E as <- <- <-; exact H|].
    destruct (_ <? S_ g); [injection E as <- <- <-; exact H|].
    cbn in E. injection E as <- <- <-. unfold built. cbn. rewrite !repeat_length. splits; auto.
    intros. rewrite nth_repeat_0. lia.
  - destruct (initialize g c s k) as [[c1 s1] st] eqn:EI. injection E as <- <- <-. eapply built_initialize; eauto.
  - destruct (do_call g c s call) as [[c1 s1] [r key]] eqn:EC. injection E as <- <- <-.
    destruct call as [key' w|q b f e]; cbn [do_call] in EC.
    + destruct (add g c s key' w) as [[c2 s2] r2] eqn:EA. injection EC as <- <- <- <-. eapply built_add; eauto.
    + eapply built_remove; eauto.
  - unfold execute in E. destruct (error_state c); [injection E as <- <- <-; exact H|].
    destruct (negb (inited c)).
    + destruct (initialize g c s k) as [[c1 s1] st] eqn:EI. injection E as <- <- <-. eapply built_initialize; eauto.
    + unfold is_full in E. destruct (increment c (add_i c) (num_keys g)) as [c1 n] eqn:EF.
      eapply built_increment in EF; [|exact H].
      destruct (n =? rem_i c1); [injection E as <- <- <-; exact EF|].
      destruct gen as [key|]; [|injection E as <- <- <-; exact EF].
      destruct (add g c1 s key w) as [[c2 s2] r2] eqn:EA. injection E as <- <- <-. eapply built_add; eauto.
Qed.

Lemma built_after : forall g life c s c' s', geometry_ok g -> built g c -> after g c s life = (c', s') -> built g c'.
Proof.
  intros g life. induction life as [|e t IH]; intros c s c' s' G H E; cbn [after] in E.
  - injection E as <- <-. exact H.
  - destruct (ev_step g c s e) as [[c1 s1] o] eqn:ES. apply (IH c1 s1 c' s' G); [|exact E]. eapply built_step; eauto.
Qed.

Lemma init_state_built : forall g b c, init_state g b = (Some c, Ok) ->
  built g c /\ error_state c = false /\ forall r, nth r (credits c) 0 = 0.
Proof.
  intros g b c E. unfold init_state in E. destruct (_ || _); [discriminate|].
  destruct (_ <? num_keys g); [discriminate|]. destruct (_ <? S_ g); [discriminate|].
  injection E as <-. unfold built. cbn. rewrite !repeat_length. splits; auto; intros; rewrite nth_repeat_0; lia.
Qed.

(** Keys in the flash. *)
Lemma init_cells : forall n i c s k c' s', validate_all n i c s k = (c', s') -> forall x, s' x = s x \/ s' x = None.
Proof.
  induction n as [|n IH]; intros i c s k c' s' E x; cbn [validate_all] in E.
  - injection E as <- <-. auto.
  - destruct (validate_block s (N.of_nat i) (k (N.of_nat i))) as [s1 v] eqn:EB.
    assert (H1 : s1 x = s x \/ s1 x = None).
    { unfold validate_block, try_erase, store_erase in EB.
      destruct (s (N.of_nat i)); [destruct (look_fault (k (N.of_nat i)))|];
        try (destruct (look_erase (k (N.of_nat i))) as [|[]]); injection EB as <- <-; auto;
        unfold put_cell; destruct (N.eqb x (N.of_nat i)); auto. }
    destruct (IH _ _ _ _ _ _ E x) as [H2|H2]; [|auto]. rewrite H2. exact H1.
Qed.

Lemma initialize_cells : forall g c s k c' s' st, initialize g c s k = (c', s', st) -> forall x, s' x = s x \/ s' x = None.
Proof.
  intros g c s k c' s' st E. unfold initialize in E. destruct (validate_all (S_ g) 0 c s k) as [c1 s1] eqn:EV.
  destruct (arrange g c1) as [c2 []]; injection E as <- <- <-; eapply init_cells; eauto.
Qed.

Lemma attempts_cells : forall n s id key w s' d, write_attempts n s id key w = (s', d) ->
  (forall x, x <> id -> s' x = s x) /\ (s' id = s id \/ s' id = None \/ s' id = Some key).
Proof.
  induction n as [|n IH]; intros s id key w s' d E; cbn [write_attempts] in E.
  - injection E as <- <-. auto.
  - destruct (w n) as [|[]]; cbn [store_write] in E.
    + injection E as <- <-. split; intros; [apply put_other; assumption | rewrite put_same; auto].
    + apply IH in E. exact E.
    + apply IH in E. destruct E as [E1 E2]. rewrite put_same in E2. split; [|tauto].
      intros x Hx. rewrite E1, put_other by exact Hx. reflexivity.
    + apply IH in E. destruct E as [E1 E2]. rewrite put_same in E2. split; [|tauto].
      intros x Hx. rewrite E1, put_other by exact Hx. reflexivity.
Qed.

Lemma add_cells : forall g c s key w c' s' r, add g c s key w = (c', s', r) ->
  exists id, (forall x, x <> id -> s' x = s x) /\ (s' id = s id \/ s' id = None \/ s' id = Some key).
Proof.
  intros g c s key w c' s' r E. unfold add in E.
  assert (Triv : exists id, (forall x, x <> id -> s x = s x) /\ (s id = s id \/ s id = None \/ s id = Some key))
    by (exists 0%N; auto).
  destruct (length key =? 0); [injection E as <- <- <-; exact Triv|].
  destruct (negb (inited c)); [injection E as <- <- <-; exact Triv|].
  destruct (error_state c); [injection E as <- <- <-; exact Triv|].
  destruct (num_keys g <=? add_i c); [injection E as <- <- <-; exact Triv|].
  destruct (N.leb (N.of_nat (R g)) (req (slot c (add_i c)))); [injection E as <- <- <-; exact Triv|].
  destruct (N.leb (N.of_nat (S_ g)) (phys (slot c (add_i c)))); [injection E as <- <- <-; exact Triv|].
  destruct (is_full g c) as [c0 fl]. destruct fl; [injection E as <- <- <-; exact Triv|].
  destruct (write_attempts MAX_RETRY s (phys (slot c (add_i c))) key w) as [s1 d] eqn:EW.
  apply attempts_cells in EW. exists (phys (slot c (add_i c))). destruct d.
  - destruct (increment _ (add_i c) (num_keys g)) as [c3 m]. injection E as <- <- <-. exact EW.
  - injection E as <- <- <-. exact EW.
Qed.

Lemma remove_cells : forall g c s q b f e c' s' r key, remove g c s q b f e = (c', s', (r, key)) -> erase_loses e ->
  (r <> Ok /\ forall x, s' x = s x \/ s' x = None) \/
  (r = Ok /\ exists id, s id = Some key /\ s' id = None /\ forall x, x <> id -> s' x = s x).
Proof.
  intros g c s q b f e c' s' r key E He. unfold remove in E.
  destruct (negb (inited c)); [injection E as <- <- <- <-; left; split; [discriminate|auto]|].
  destruct (error_state c); [injection E as <- <- <- <-; left; split; [discriminate|auto]|].
  destruct (N.leb (N.of_nat (R g)) q); [injection E as <- <- <- <-; left; split; [discriminate|auto]|].
  destruct (num_keys g <? rem_i c); [injection E as <- <- <- <-; left; split; [discriminate|auto]|].
  destruct (is_empty c); [injection E as <- <- <- <-; left; split; [discriminate|auto]|].
  destruct (valid (slot c (rem_i c))); try (injection E as <- <- <- <-; left; split; [discriminate|auto]).
  destruct (N.leb (N.of_nat (S_ g)) (phys (slot c (rem_i c)))); [injection E as <- <- <- <-; left; split; [discriminate|auto]|].
  destruct (nth (N.to_nat q) (credits c) 0 =? 0); [injection E as <- <- <- <-; left; split; [discriminate|auto]|].
  set (id := phys (slot c (rem_i c))) in *.
  destruct (try_erase s id e) as [s1 v] eqn:EE.
  assert (Hs : s1 id = None /\ forall x, x <> id -> s1 x = s x).
  { unfold try_erase, store_erase in EE. destruct e as [|[]]; cbn in He; try discriminate; injection EE as <- <-;
      (split; [apply put_same | intros; apply put_other; assumption]). }
  destruct Hs as [Hs1 Hs2]. unfold store_read in E.
  assert (Hany : forall x, s1 x = s x \/ s1 x = None).
  { intros x. destruct (N.eq_dec x id) as [->|Hn]; auto. }
  destruct (s id) as [k|] eqn:Ek; [|injection E as <- <- <- <-; left; split; [discriminate|auto]].
  destruct f; [injection E as <- <- <- <-; left; split; [discriminate|auto]|].
  destruct (Nat.leb (length k) b); injection E as <- <- <- <-.
  - right. split; [reflexivity|]. exists id. auto.
  - left. split; [discriminate|auto].
Qed.

Lemma NoDup_app_iff {A} (l1 l2 : list A) :
  NoDup (l1 ++ l2) <-> NoDup l1 /\ NoDup l2 /\ (forall x, In x l1 -> ~ In x l2).
Proof.
  induction l1 as [|a t IH]; cbn.
  - split; [intros; repeat split; auto; constructor|tauto].
  - rewrite !NoDup_cons_iff, IH, in_app_iff. split.
    + intros (H1 & H2 & H3 & H4). repeat split; auto. intros x [<-|Hx]; auto.
    + intros ((H1 & H2) & H3 & H4). repeat split; auto. intros [H|H]; auto. exact (H4 a (or_introl eq_refl) H).
Qed.

(** The keys handed out during a life come from the flash or were given, and none comes twice. *)
Lemma handed_once : forall g life c s, distinct_blocks s -> NoDup (flat_map given life) ->
  (forall id k, s id = Some k -> ~ In k (flat_map given life)) -> Forall failed_erases_lose life ->
  NoDup (handed g c s life) /\
  (forall k, In k (handed g c s life) -> In k (flat_map given life) \/ exists id, s id = Some k).
Proof.
  intros g life. induction life as [|e t IH]; intros c s HD HN HF HE.
  - cbn. split; [constructor|]. intros k [].
  - cbn [handed flat_map] in *. inversion HE as [|? ? He Ht]; subst.
    destruct (ev_step g c s e) as [[c' s'] o] eqn:ES.
    apply NoDup_app_iff in HN. destruct HN as (HN1 & HN2 & HN3).
    assert (Cells : (forall x k, s' x = Some k -> s x = Some k \/ In k (given e)) /\ distinct_blocks s' /\
      (o = [] \/ exists key id, o = [key] /\ s id = Some key /\ (forall x, s' x <> Some key) /\ given e = [])).
    { assert (Fewer : (forall x, s' x = s x \/ s' x = None) ->
         (forall x k, s' x = Some k -> s x = Some k \/ In k (given e)) /\ distinct_blocks s').
      { intros HX. split.
        - intros x k Hk. destruct (HX x) as [HX'|HX']; [left; congruence | congruence].
        - intros i j k Hi Hj. destruct (HX i) as [E1|E1], (HX j) as [E2|E2]; try congruence.
          apply (HD i j k); congruence. }
      assert (More : forall key, given e = [key] -> (exists id, (forall x, x <> id -> s' x = s x) /\
           (s' id = s id \/ s' id = None \/ s' id = Some key)) ->
         (forall x k, s' x = Some k -> s x = Some k \/ In k (given e)) /\ distinct_blocks s').
      { intros key Hg (id & H1 & H2). rewrite Hg in *.
        assert (Hkey : forall x, s x <> Some key).
        { intros x Hx. apply (HF x key Hx). apply in_or_app. left. left. reflexivity. }
        assert (HA : forall x, x = id \/ s' x = s x) by (intros x; destruct (N.eq_dec x id); auto).
        split.
        - intros x k Hk. destruct (HA x) as [->|Hx]; [|left; congruence].
          destruct H2 as [H2|[H2|H2]]; [left; congruence | congruence | right; left; congruence].
        - intros i j k Hi Hj. destruct (HA i) as [->|Hxi], (HA j) as [->|Hxj]; auto.
          + destruct H2 as [H2|[H2|H2]];
              [apply (HD id j k); congruence | congruence | exfalso; apply (Hkey j); congruence].
          + destruct H2 as [H2|[H2|H2]];
              [apply (HD i id k); congruence | congruence | exfalso; apply (Hkey i); congruence].
          + apply (HD i j k); congruence. }
      destruct e as [b|k|call|k gen w]; cbn [ev_step] in ES.
      - assert (s' = s /\ o = []) as [-> ->].
        { destruct (fst (init_state g b)); injection ES as <- <- <-; auto. }
        split; [|split; [|left; reflexivity]]; apply Fewer; auto.
      - destruct (initialize g c s k) as [[c1 s1] st] eqn:EI. injection ES as <- <- <-.
        split; [|split; [|left; reflexivity]]; apply Fewer; eapply initialize_cells; eauto.
      - destruct (do_call g c s call) as [[c1 s1] [r key]] eqn:EC. injection ES as <- <- <-.
        destruct call as [key' w|q b f ee]; cbn [do_call] in EC.
        + destruct (add g c s key' w) as [[c2 s2] r2] eqn:EA. injection EC as <- <- <- <-.
          apply add_cells in EA. destruct (More key' eq_refl EA). auto.
        + apply remove_cells in EC; [|exact He]. destruct EC as [[Hr HX]|(-> & id & H1 & H2 & H3)].
          * destruct (Fewer HX). splits; auto. left. destruct r; congruence.
          * assert (HX : forall x, s1 x = s x \/ s1 x = None) by (intros x; destruct (N.eq_dec x id) as [->|]; auto).
            destruct (Fewer HX). splits; auto. right. exists key, id. splits; auto.
            intros x Hx. destruct (HX x) as [E1|E1]; [|congruence]. rewrite E1 in Hx.
            assert (x = id) by (apply (HD x id key); assumption). congruence.
      - destruct (execute g c s k gen w) as [c1 s1] eqn:EX. injection ES as <- <- <-.
        unfold execute in EX.
        assert (Same : s1 = s -> (forall x kk, s1 x = Some kk -> s x = Some kk \/ In kk (given (EvTask k gen w))) /\
            distinct_blocks s1).
        { intros ->. apply Fewer. auto. }
        assert (Goal1 : (forall x kk, s1 x = Some kk -> s x = Some kk \/ In kk (given (EvTask k gen w))) /\
            distinct_blocks s1); [|destruct Goal1; auto].
        destruct (error_state c); [injection EX as <- <-; auto|].
        destruct (negb (inited c)).
        + destruct (initialize g c s k) as [[c2 s2] st] eqn:EI. injection EX as <- <-.
          apply Fewer. eapply initialize_cells; eauto.
        + destruct (is_full g c) as [c2 []]; [injection EX as <- <-; auto|].
          destruct gen as [key|]; [|injection EX as <- <-; auto].
          destruct (add g c2 s key w) as [[c3 s3] r] eqn:EA. injection EX as <- <-.
          apply add_cells in EA. apply (More key eq_refl EA). }
    destruct Cells as (HC1 & HC2 & HC3).
    destruct (IH c' s' HC2 HN2) as [I1 I2]; [|exact Ht|].
    { intros id k Hk Hin. destruct (HC1 id k Hk) as [Hs|Hg].
      - apply (HF id k Hs). apply in_or_app. right. exact Hin.
      - apply (HN3 k Hg Hin). }
    destruct HC3 as [->|(key & id & -> & Hs & Hn & Hg)].
    + cbn [app]. split; [exact I1|]. intros k Hk. destruct (I2 k Hk) as [Hin|[x Hx]].
      * left. apply in_or_app. auto.
      * destruct (HC1 x k Hx); [right; eauto | left; apply in_or_app; auto].
    + cbn [app]. split.
      * constructor; [|exact I1]. intros Hin. destruct (I2 key Hin) as [Hin'|[x Hx]].
        -- apply (HF id key Hs). apply in_or_app. auto.
        -- apply (Hn x Hx).
      * intros k [<-|Hk]; [right; eauto|]. destruct (I2 k Hk) as [Hin|[x Hx]].
        -- left. apply in_or_app. auto.
        -- destruct (HC1 x k Hx); [right; eauto | left; apply in_or_app; auto].
Qed.

(** Shares. *)
Lemma count_occ_app_one : forall l r x, count_occ N.eq_dec (l ++ [r]) x =
  count_occ N.eq_dec l x + if N.eqb x r then 1 else 0.
Proof.
  intros. rewrite count_occ_app. cbn. destruct (N.eq_dec r x) as [->|Hn].
  - rewrite N.eqb_refl. reflexivity.
  - destruct (N.eqb_spec x r); congruence.
Qed.

Definition fair (g : geometry) (L : ledger) : Prop :=
  shares g L /\ length (keys L) + length (debts L) = R g * C g /\ Forall (fun d => (d < N.of_nat (R g))%N) (debts L).

Lemma fair_step : forall g L o, fair g L -> fair g (snd (ledger_step g L o)).
Proof.
  intros g L o (H1 & H2 & H3). unfold fair. destruct o as [key w|q b f e]; cbn [ledger_step].
  - destruct key as [|x key]; [cbn; auto|]. destruct (debts L) as [|d t] eqn:ED; [cbn; rewrite ED; auto|].
    destruct (written w); [|cbn; rewrite ED; auto]. cbn [snd keys debts].
    inversion H3; subst. splits; auto; [|rewrite app_length; cbn in *; lia].
    intros r Hr. unfold owed, add_to. cbn [credit debts]. specialize (H1 r Hr). unfold owed in H1. rewrite ED in H1.
    destruct (N.eqb_spec r d) as [->|Hn].
    + rewrite count_occ_cons_eq in H1 by reflexivity. lia.
    + rewrite count_occ_cons_neq in H1 by congruence. exact H1.
  - destruct (N.leb (N.of_nat (R g)) q) eqn:EQ; [cbn; auto|].
    destruct (keys L) as [|k t] eqn:EK; [cbn; rewrite EK; auto|].
    destruct (credit L q =? 0) eqn:EC; [cbn; rewrite EK; auto|].
    cbn [snd keys debts]. splits.
    + intros r Hr. unfold owed, add_to. cbn [credit debts]. rewrite count_occ_app_one. specialize (H1 r Hr).
      unfold owed in H1. destruct (N.eqb_spec r q) as [->|Hn]; lia.
    + rewrite app_length. cbn [length] in *. lia.
    + apply Forall_app. split; [exact H3|]. constructor; [lia|constructor].
Qed.

Lemma owed_step : forall g L o r, owed (snd (ledger_step g L o)) r <= owed L r + if asks r o then 1 else 0.
Proof.
  intros g L o r. unfold owed. destruct o as [key w|q b f e]; cbn [ledger_step asks].
  - destruct key as [|x key]; [cbn; lia|]. destruct (debts L) as [|d t] eqn:ED; [cbn; rewrite ED; cbn; lia|].
    destruct (written w); cbn [snd debts].
    + cbn [count_occ]. destruct (N.eq_dec d r); lia.
    + rewrite ED. lia.
  - destruct (N.leb (N.of_nat (R g)) q); [cbn; lia|].
    destruct (keys L); [cbn; lia|]. destruct (credit L q =? 0); [cbn; lia|].
    cbn [snd debts]. rewrite count_occ_app_one, (N.eqb_sym r q). lia.
Qed.

Lemma sum_owed : forall (l : list N) (n c : nat), Forall (fun d => (d < N.of_nat n)%N) l ->
  (forall r, (r < N.of_nat n)%N -> count_occ N.eq_dec l r <= c) -> length l <= n * c.
Proof.
  intros l n. revert l. induction n as [|n IH]; intros l c HF HC.
  - destruct l; [cbn; lia|]. inversion HF; subst. lia.
  - set (l1 := filter (fun d => negb (N.eqb d (N.of_nat n))) l).
    assert (Hsplit : length l = count_occ N.eq_dec l (N.of_nat n) + length l1).
    { unfold l1. clear. induction l as [|x l IH]; [reflexivity|]. cbn [count_occ filter].
      destruct (N.eq_dec x (N.of_nat n)) as [->|Hn].
      - rewrite N.eqb_refl. cbn [negb length]. lia.
      - destruct (N.eqb_spec x (N.of_nat n)); [congruence|]. cbn [negb length]. lia. }
    assert (H1 : length l1 <= n * c).
    { apply IH.
      - apply Forall_forall. intros d Hd. unfold l1 in Hd. apply filter_In in Hd. destruct Hd as [Hd Hb].
        rewrite Forall_forall in HF. specialize (HF d Hd). destruct (N.eqb_spec d (N.of_nat n)); [discriminate|lia].
      - intros r Hr. eapply Nat.le_trans; [|apply (HC r); lia].
        unfold l1. clear. induction l as [|x l IH]; [cbn; lia|]. cbn [filter count_occ].
        destruct (negb (N.eqb x (N.of_nat n))); cbn [count_occ]; destruct (N.eq_dec x r); lia. }
    pose proof (HC (N.of_nat n) ltac:(lia)). lia.
Qed.

Lemma fair_serves : forall g L r b f e, fair g L -> (r < N.of_nat (R g))%N -> owed L r < C g ->
  fst (fst (ledger_step g L (CRemove r b f e))) <> NoCredit /\
  fst (fst (ledger_step g L (CRemove r b f e))) <> QueueEmpty.
Proof.
  intros g L r b f e (H1 & H2 & H3) Hr Ho. cbn [ledger_step].
  replace (N.leb (N.of_nat (R g)) r) with false by lia.
  pose proof (H1 r Hr) as Hs.
  destruct (keys L) as [|k t] eqn:EK.
  - exfalso. cbn [length] in H2. unfold owed in *.
    set (l := filter (fun d => negb (N.eqb d r)) (debts L)).
    assert (HL : length (debts L) = count_occ N.eq_dec (debts L) r + length l).
    { unfold l. generalize (debts L). clear. intros l. induction l as [|x l IH]; [reflexivity|]. cbn [count_occ filter].
      destruct (N.eq_dec x r) as [->|Hn].
      - rewrite N.eqb_refl. cbn [negb length]. lia.
      - destruct (N.eqb_spec x r); [congruence|]. cbn [negb length]. lia. }
    assert (HB : length (debts L ++ [r]) <= R g * C g).
    { apply sum_owed.
      - apply Forall_app. split; [exact H3|]. constructor; [exact Hr|constructor].
      - intros q Hq. rewrite count_occ_app_one. specialize (H1 q Hq). unfold owed in H1. destruct (N.eqb_spec q r) as [->|]; lia. }
    rewrite app_length in HB. cbn in HB. lia.
  - replace (credit L r =? 0) with false by lia. cbn [fst].
    destruct (f || (b <? length k)); cbn; split; discriminate.
Qed.

Lemma agrees_served : forall g ops L seen r b f e, agrees g L (ops ++ [CRemove r b f e]) seen -> fair g L ->
  (r < N.of_nat (R g))%N -> owed L r + count (asks r) ops < C g ->
  exists v, nth_error seen (length ops) = Some v /\ fst (result v) <> NoCredit /\ fst (result v) <> QueueEmpty.
Proof.
  intros g ops. induction ops as [|o t IH]; intros L seen r b f e H HF Hr Ho.
  - cbn [app agrees] in H. destruct seen as [|v seen]; [contradiction|].
    destruct (ledger_step g L (CRemove r b f e)) as [res L'] eqn:EL.
    exists v. split; [reflexivity|].
    destruct (fair_serves g L r b f e HF Hr) as [A B]; [unfold count in Ho; cbn in Ho; lia|]. rewrite EL in A, B. cbn in A, B.
    destruct (up v).
    + destruct H as (-> & _). auto.
    + destruct H as [[[-> _]|[-> HX]] _]; [auto | cbn in HX; contradiction].
  - cbn [app agrees] in H. destruct seen as [|v seen]; [contradiction|].
    pose proof (fair_step g L o HF) as HF'. pose proof (owed_step g L o r) as HO.
    destruct (ledger_step g L o) as [res L'] eqn:EL. cbn [snd] in *.
    assert (HC : count (asks r) (o :: t) = (if asks r o then 1 else 0) + count (asks r) t).
    { unfold count. cbn [filter]. destruct (asks r o); reflexivity. }
    destruct (up v).
    + destruct H as (_ & _ & _ & H). cbn [length nth_error]. eapply IH; eauto. lia.
    + destruct H as [_ H]. cbn [length nth_error]. clear -H. revert seen H. induction t as [|o t IHt]; intros seen H.
      * inversion H; subst. exists y. split; [reflexivity|]. destruct H2 as [-> _]. cbn. split; discriminate.
      * inversion H; subst. cbn [length nth_error]. apply IHt. assumption.
Qed.

(** How many keys a requestor gets. *)
Lemma credit_step : forall g L o r, (r < N.of_nat (R g))%N -> credit L r <= C g ->
  credit (snd (ledger_step g L o)) r <= C g /\
  (if asks r o && match fst (fst (ledger_step g L o)) with Ok => true | _ => false end then 1 else 0) +
  credit (snd (ledger_step g L o)) r <=
  credit L r + match o with CAdd _ _ => match fst (fst (ledger_step g L o)) with Ok => 1 | _ => 0 end | _ => 0 end.
Proof.
  intros g L o r Hr Hc. destruct o as [key w|q b f e]; cbn [ledger_step asks].
  - destruct key as [|x key]; [cbn; lia|]. destruct (debts L) as [|d t]; [cbn; lia|].
    destruct (written w); [|cbn; lia]. cbn [fst snd credit andb]. unfold add_to. destruct (N.eqb_spec r d) as [->|]; lia.
  - destruct (N.leb (N.of_nat (R g)) q) eqn:EQ; [cbn [fst snd]; rewrite andb_false_r; lia|].
    destruct (keys L) as [|k t]; [cbn [fst snd]; rewrite andb_false_r; lia|].
    destruct (credit L q =? 0) eqn:EC; [cbn [fst snd]; rewrite andb_false_r; lia|].
    cbn [snd fst credit]. unfold add_to. rewrite (N.eqb_sym q r).
    destruct (N.eqb_spec r q) as [->|]; destruct (f || (b <? length k)); cbn [fst andb]; lia.
Qed.

Lemma count_cons : forall (A : Type) (p : A -> bool) x l, count p (x :: l) = (if p x then 1 else 0) + count p l.
Proof. intros. unfold count. cbn [filter]. destruct (p x); reflexivity. Qed.

Lemma agrees_limit : forall g ops L seen r, agrees g L ops seen -> (r < N.of_nat (R g))%N -> credit L r <= C g ->
  count (gets r) (combine ops seen) <= credit L r + count adds (combine ops seen).
Proof.
  intros g ops. induction ops as [|o t IH]; intros L seen r H Hr Hc; [cbn; lia|].
  destruct seen as [|v seen]; [contradiction|]. cbn [agrees combine] in *. rewrite !count_cons.
  destruct (credit_step g L o r Hr Hc) as [Hc' Hst].
  destruct (ledger_step g L o) as [res L'] eqn:EL. cbn [fst snd] in *.
  assert (Hv : result v = res -> (if gets r (o, v) then 1 else 0) + credit L' r <=
     credit L r + (if adds (o, v) then 1 else 0)).
  { intros E. unfold gets, adds. rewrite E. destruct o; destruct (fst res); lia. }
  destruct (up v).
  - destruct H as (E & _ & _ & H). specialize (IH L' seen r H Hr Hc'). specialize (Hv E). lia.
  - destruct H as [HE HD].
    assert (HZ : count (gets r) (combine t seen) = 0).
    { clear -HD. induction HD as [|o v t seen [H1 H2] HD IH]; [reflexivity|]. cbn [combine]. rewrite count_cons, IH.
      unfold gets. rewrite H1. destruct o as [[|]|]; cbn; rewrite ?andb_false_r; reflexivity. }
    rewrite HZ. destruct HE as [[E _]|[E HX]]; [specialize (Hv E); lia|].
    unfold gets. rewrite E. cbn [fst]. rewrite andb_false_r. lia.
Qed.
