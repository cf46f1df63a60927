(** The circular queue: add and remove follow the ledger. *)
From Coq Require Import List NArith Bool Arith Lia ZifyBool ZifyNat ZifyN.
From Verif Require Import Base KeyCache_Model KeyCache_Spec.
Import ListNotations.

Ltac splits := repeat match goal with |- _ /\ _ => split end.

(** The slot [j] places after [a] on a circle of [n]. *)
Definition pos (n a j : nat) : nat := if a + j <? n then a + j else a + j - n.

Lemma mod_pos : forall n a, a < n -> (a + 1) mod n = pos n a 1.
Proof.
  intros n a H. unfold pos. destruct (a + 1 <? n) eqn:E.
  - rewrite Nat.mod_small; lia.
  - assert (a + 1 = n) by lia. rewrite H0, Nat.mod_same by lia. lia.
Qed.

Lemma pos_lt : forall n a j, a < n -> j < n -> pos n a j < n.
Proof. intros. unfold pos. destruct (a + j <? n) eqn:E; lia. Qed.

Lemma pos_inj : forall n a i j, a < n -> i < n -> j < n -> pos n a i = pos n a j -> i = j.
Proof. intros n a i j. unfold pos. destruct (a + i <? n) eqn:E, (a + j <? n) eqn:E'; lia. Qed.

Lemma pos_add : forall n a i j, a < n -> i + j < n -> pos n (pos n a i) j = pos n a (i + j).
Proof.
  intros n a i j. unfold pos. destruct (a + i <? n) eqn:E.
  - destruct (a + i + j <? n) eqn:E1, (a + (i + j) <? n) eqn:E2; lia.
  - destruct (a + i - n + j <? n) eqn:E1, (a + (i + j) <? n) eqn:E2; lia.
Qed.

Lemma pos_0 : forall n a, a < n -> pos n a 0 = a.
Proof. intros. unfold pos. destruct (a + 0 <? n) eqn:E; lia. Qed.

Lemma slot_set : forall c i x j, i < length (infos c) ->
  slot (set_slot c i x) j = if i =? j then x else slot c j.
Proof.
  intros c i x j H. unfold slot, set_slot, set_infos. cbn [infos]. destruct (i =? j) eqn:E.
  - apply Nat.eqb_eq in E. subst. apply nth_upd_eq, H.
  - apply nth_upd_neq. apply Nat.eqb_neq, E.
Qed.

Lemma infos_set_slot : forall c i x, length (infos (set_slot c i x)) = length (infos c).
Proof. intros. unfold set_slot, set_infos. cbn [infos]. apply length_upd. Qed.

Lemma put_same : forall s id v, put_cell s id v id = v.
Proof. intros. unfold put_cell. rewrite N.eqb_refl. reflexivity. Qed.

Lemma put_other : forall s id v x, x <> id -> put_cell s id v x = s x.
Proof. intros. unfold put_cell. destruct (N.eqb_spec x id); congruence. Qed.

Definition blocks_ok (g : geometry) (c : cache) : Prop :=
  (forall i, i < S_ g -> (phys (slot c i) < N.of_nat (S_ g))%N) /\
  (forall i j, i < S_ g -> j < S_ g -> phys (slot c i) = phys (slot c j) -> i = j).

Record rep (g : geometry) (c : cache) (s : store) (L : ledger) : Prop := {
  r_err : error_state c = false;
  r_len : length (infos c) = S_ g;
  r_cred : length (credits c) = R g;
  r_rem : rem_i c < num_keys g;
  r_add : add_i c = pos (num_keys g) (rem_i c) (length (keys L));
  r_tot : length (keys L) + length (debts L) = R g * C g;
  r_keys : forall j k, nth_error (keys L) j = Some k ->
    valid (slot c (pos (num_keys g) (rem_i c) j)) = Valid /\
    s (phys (slot c (pos (num_keys g) (rem_i c) j))) = Some k;
  r_debts : forall j d, nth_error (debts L) j = Some d ->
    req (slot c (pos (num_keys g) (rem_i c) (length (keys L) + j))) = d /\ (d < N.of_nat (R g))%N;
  r_blocks : blocks_ok g c;
  r_free : free_i c < S_ g;
  r_credit : forall r, (r < N.of_nat (R g))%N -> credit L r = nth (N.to_nat r) (credits c) 0 /\ credit L r <= C g
}.

(** Replacing the block of one slot keeps everything but that slot's block. *)
Lemma replace_block_spec : forall g c i c', geometry_ok g -> length (infos c) = S_ g -> i < num_keys g ->
  free_i c < S_ g -> blocks_ok g c -> c' = replace_block g c i ->
  (inited c' = inited c \/ inited c' = false) /\ error_state c' = error_state c /\
  length (infos c') = S_ g /\ credits c' = credits c /\ rem_i c' = rem_i c /\ add_i c' = add_i c /\
  free_i c' < S_ g /\ blocks_ok g c' /\
  (forall j, j < num_keys g -> valid (slot c' j) = valid (slot c j) /\ req (slot c' j) = req (slot c j) /\
    (j <> i -> phys (slot c' j) = phys (slot c j))).
Proof.
  intros g c i c' G Hlen Hi Hfree Hb ->. unfold replace_block.
  pose proof (g_s g G) as GS.
  destruct (free_i c <=? num_keys g) eqn:E.
  - cbn. repeat split; try tauto; auto; apply Hb.
  - assert (Hn : free_i c < length (infos c)) by lia. assert (Hi' : i < length (infos c)) by lia.
    set (n := free_i c) in *.
    set (c1 := set_slot c i (Info (valid (slot c i)) (phys (slot c n)) (req (slot c i)))).
    set (c2 := set_slot c1 n (Info (valid (slot c1 n)) (phys (slot c i)) (req (slot c1 n)))).
    assert (Hs : forall j, slot (set_free c2 (n - 1)) j =
      if n =? j then Info (valid (slot c j)) (phys (slot c i)) (req (slot c j))
      else if i =? j then Info (valid (slot c j)) (phys (slot c n)) (req (slot c j)) else slot c j).
    { intros j. change (slot (set_free c2 (n - 1)) j) with (slot c2 j). unfold c2.
      rewrite slot_set by (unfold c1; rewrite infos_set_slot; lia). unfold c1.
      rewrite !slot_set by lia. replace (i =? n) with false by lia.
      destruct (n =? j) eqn:E1; [apply Nat.eqb_eq in E1; rewrite E1; reflexivity|].
      destruct (i =? j) eqn:E2; [apply Nat.eqb_eq in E2; rewrite E2|]; reflexivity. }
    split; [left; reflexivity|]. split; [reflexivity|].
    split; [change (length (infos c2) = S_ g); unfold c2, c1; rewrite !infos_set_slot; lia|].
    split; [reflexivity|]. split; [reflexivity|]. split; [reflexivity|]. split; [cbn; lia|].
    destruct Hb as [B1 B2].
    split.
    + split.
      * intros j Hj. rewrite Hs. destruct (n =? j); [apply B1; lia|]. destruct (i =? j); apply B1; lia.
      * intros a b Ha Hbb Heq. rewrite !Hs in Heq.
        destruct (n =? a) eqn:E1, (n =? b) eqn:E2; try lia; destruct (i =? a) eqn:E3, (i =? b) eqn:E4; try lia;
          cbn [phys] in Heq; apply B2 in Heq; lia.
    + intros j Hj. rewrite Hs. replace (n =? j) with false by lia.
      destruct (i =? j) eqn:E2; cbn; repeat split; auto. intros. lia.
Qed.

(** Giving a slot back. *)
Lemma release_spec : forall g c r c', geometry_ok g -> length (infos c) = S_ g -> rem_i c < num_keys g ->
  length (credits c) = R g -> (r < N.of_nat (R g))%N -> c' = release_slot g c r ->
  inited c' = inited c /\ error_state c' = error_state c /\ length (infos c') = S_ g /\
  credits c' = upd (credits c) (N.to_nat r) (nth (N.to_nat r) (credits c) 0 - 1) /\
  rem_i c' = pos (num_keys g) (rem_i c) 1 /\ add_i c' = add_i c /\ free_i c' = free_i c /\
  (forall j, phys (slot c' j) = phys (slot c j)) /\
  (forall j, j <> rem_i c -> valid (slot c' j) = valid (slot c j)) /\
  (forall j, j <> rem_i c -> j <> pos (num_keys g) (rem_i c) (num_keys g - 1) -> req (slot c' j) = req (slot c j)) /\
  req (slot c' (pos (num_keys g) (rem_i c) (num_keys g - 1))) = r.
Proof.
  intros g c r c' G Hlen Hrem Hcr Hr Hc'. unfold release_slot in Hc'.
  pose proof (g_s g G) as GS. pose proof (g_r g G). pose proof (g_c g G).
  assert (NK : 2 <= num_keys g) by (unfold num_keys; nia).
  set (c1 := if 0 <? nth (N.to_nat r) (credits c) 0 then _ else c) in Hc'.
  assert (H1 : infos c1 = infos c /\ rem_i c1 = rem_i c /\ add_i c1 = add_i c /\ free_i c1 = free_i c /\
    inited c1 = inited c /\ error_state c1 = error_state c /\
    credits c1 = upd (credits c) (N.to_nat r) (nth (N.to_nat r) (credits c) 0 - 1)).
  { unfold c1. destruct (0 <? nth (N.to_nat r) (credits c) 0) eqn:E; cbn; splits; auto.
    assert (E0 : nth (N.to_nat r) (credits c) 0 = 0) by lia. rewrite E0. cbn [Nat.sub].
    rewrite <- E0. rewrite upd_same; [reflexivity | lia]. }
  clearbody c1. destruct H1 as (I1 & R1 & A1 & F1 & N1 & E1 & C1).
  assert (Sl : forall j, slot c1 j = slot c j) by (intros; unfold slot; rewrite I1; reflexivity).
  assert (D : decrement c1 (rem_i c) (num_keys g) = (c1, pos (num_keys g) (rem_i c) (num_keys g - 1))).
  { unfold decrement, pos. destruct (rem_i c =? 0) eqn:E.
    - apply Nat.eqb_eq in E. rewrite E. replace (0 + (num_keys g - 1) <? num_keys g) with true by lia.
      f_equal. 
    - replace (rem_i c <? num_keys g) with true by lia.
      replace (rem_i c + (num_keys g - 1) <? num_keys g) with false by lia. f_equal. lia. }
  rewrite D in Hc'. clear D.
  set (p := pos (num_keys g) (rem_i c) (num_keys g - 1)) in *.
  assert (Hp : p < num_keys g) by (apply pos_lt; lia).
  assert (Hpr : p <> rem_i c).
  { unfold p, pos. destruct (rem_i c + (num_keys g - 1) <? num_keys g) eqn:E; lia. }
  set (c3 := set_slot c1 p _) in Hc'.
  set (c4 := set_slot c3 (rem_i c) _) in Hc'.
  assert (L3 : length (infos c3) = S_ g) by (unfold c3; rewrite infos_set_slot, I1; lia).
  assert (Hs : forall j, slot c4 j = if rem_i c =? j then Info Invalid (phys (slot c j)) UNASSIGNED
     else if p =? j then Info (valid (slot c j)) (phys (slot c j)) r else slot c j).
  { intros j. unfold c4. rewrite slot_set by lia. unfold c3. rewrite !slot_set by (rewrite I1; lia).
    replace (p =? rem_i c) with false by lia. rewrite !Sl.
    destruct (rem_i c =? j) eqn:E; [apply Nat.eqb_eq in E; rewrite E; reflexivity|].
    destruct (p =? j) eqn:E'; [apply Nat.eqb_eq in E'; rewrite E'|]; reflexivity. }
  unfold increment in Hc'. replace (rem_i c <? num_keys g) with true in Hc' by lia.
  rewrite mod_pos in Hc' by lia.
  assert (Hs' : forall j, slot c' j = slot c4 j) by (intros; subst c'; reflexivity).
  assert (F4 : inited c4 = inited c1 /\ error_state c4 = error_state c1 /\ credits c4 = credits c1 /\
    add_i c4 = add_i c1 /\ free_i c4 = free_i c1) by (splits; reflexivity).
  destruct F4 as (? & ? & ? & ? & ?).
  splits.
  - subst c'. cbn. congruence.
  - subst c'. cbn. congruence.
  - subst c'. cbn [set_rem infos]. unfold c4. rewrite infos_set_slot. exact L3.
  - subst c'. cbn. congruence.
  - subst c'. reflexivity.
  - subst c'. cbn. congruence.
  - subst c'. cbn. congruence.
  - intros j. rewrite Hs', Hs. destruct (rem_i c =? j), (p =? j); reflexivity.
  - intros j Hj. rewrite Hs', Hs. replace (rem_i c =? j) with false by lia. destruct (p =? j); reflexivity.
  - intros j Hj Hj'. rewrite Hs', Hs. replace (rem_i c =? j) with false by lia.
    replace (p =? j) with false by lia. reflexivity.
  - rewrite Hs', Hs. replace (rem_i c =? p) with false by lia. rewrite Nat.eqb_refl. reflexivity.
Qed.

Lemma is_full_spec : forall g c s L, geometry_ok g -> rep g c s L ->
  is_full g c = (c, match debts L with [] => true | _ => false end).
Proof.
  intros g c s L G HR. unfold is_full, increment. pose proof (g_r g G). pose proof (g_c g G).
  assert (NK : 2 <= num_keys g) by (unfold num_keys; nia).
  pose proof (r_rem _ _ _ _ HR). pose proof (r_add _ _ _ _ HR) as HA. pose proof (r_tot _ _ _ _ HR) as HT.
  assert (HK : length (keys L) < num_keys g) by (unfold num_keys; lia).
  assert (add_i c < num_keys g) by (rewrite HA; apply pos_lt; lia).
  replace (add_i c <? num_keys g) with true by lia. rewrite mod_pos by lia. apply f_equal2; [reflexivity|].
  rewrite HA. destruct (debts L) as [|d t] eqn:E.
  - cbn [length] in HT. assert (HK1 : length (keys L) = num_keys g - 1) by (unfold num_keys; lia).
    rewrite HK1. unfold pos. destruct (rem_i c + (num_keys g - 1) <? num_keys g) eqn:E1.
    + assert (HR0 : rem_i c = 0) by lia. rewrite HR0.
      replace (0 + (num_keys g - 1) + 1 <? num_keys g) with false by lia. apply Nat.eqb_eq. lia.
    + replace (rem_i c + (num_keys g - 1) - num_keys g + 1 <? num_keys g) with true by lia. apply Nat.eqb_eq. lia.
  - cbn [length] in HT. rewrite pos_add by (unfold num_keys in *; lia). apply Nat.eqb_neq. intros Hc.
    rewrite <- (pos_0 (num_keys g) (rem_i c)) in Hc at 2 by lia.
    apply pos_inj in Hc; unfold num_keys in *; lia.
Qed.

Lemma is_empty_spec : forall g c s L, geometry_ok g -> rep g c s L ->
  is_empty c = match keys L with [] => true | _ => false end.
Proof.
  intros g c s L G HR. unfold is_empty. pose proof (r_rem _ _ _ _ HR). rewrite (r_add _ _ _ _ HR).
  pose proof (r_tot _ _ _ _ HR) as HT. destruct (keys L) as [|k t].
  - cbn [length]. rewrite pos_0 by lia. apply Nat.eqb_refl.
  - apply Nat.eqb_neq. intros Hc. rewrite <- (pos_0 (num_keys g) (rem_i c)) in Hc at 2 by lia.
    cbn [length] in *. apply pos_inj in Hc; unfold num_keys in *; lia.
Qed.

Lemma written_attempts : forall s id key w s' d, write_attempts MAX_RETRY s id key w = (s', d) ->
  d = written w /\ (forall x, x <> id -> s' x = s x) /\ (d = true -> s' id = Some key).
Proof.
  intros s id key w s' d H. unfold MAX_RETRY in H. cbn [write_attempts] in H. unfold written. cbn [existsb].
  destruct (w 2) as [|[]]; cbn in H;
  [ injection H as <- <-; rewrite !orb_true_r; splits; auto; intros; [apply put_other; auto | apply put_same] | .. ];
  (destruct (w 1) as [|[]]; cbn in H;
  [ injection H as <- <-; rewrite !orb_true_r; splits; auto; intros;
    [rewrite ?put_other by auto; auto | rewrite ?put_same; auto] | .. ]);
  (destruct (w 0) as [|[]]; cbn in H; injection H as <- <-; cbn; splits; auto; intros;
    rewrite ?put_other, ?put_same by auto; try discriminate; reflexivity).
Qed.

Lemma upd_same_val : forall (l : list nat) i v, i < length l -> nth i l 0 = v -> upd l i v = l.
Proof. intros l i v H <-. apply upd_same. exact H. Qed.

Lemma nth_error_Some_lt : forall (A : Type) (l : list A) j x, nth_error l j = Some x -> j < length l.
Proof. intros. apply nth_error_Some. congruence. Qed.

Lemma nth_add_to : forall g c L r v, (forall x, (x < N.of_nat (R g))%N ->
     credit L x = nth (N.to_nat x) (credits c) 0 /\ credit L x <= C g) ->
  length (credits c) = R g -> (r < N.of_nat (R g))%N -> v <= C g ->
  forall x, (x < N.of_nat (R g))%N ->
    add_to (credit L) r v x = nth (N.to_nat x) (upd (credits c) (N.to_nat r) v) 0 /\ add_to (credit L) r v x <= C g.
Proof.
  intros g c L r v H Hl Hr Hv x Hx. unfold add_to. destruct (N.eqb_spec x r) as [->|Hn].
  - rewrite nth_upd_eq by lia. auto.
  - rewrite nth_upd_neq by lia. auto.
Qed.

Lemma nth_error_app_last : forall (A : Type) (l : list A) x j y, nth_error (l ++ [x]) j = Some y ->
  nth_error l j = Some y \/ (j = length l /\ y = x).
Proof.
  intros A l x j y H. destruct (Nat.lt_ge_cases j (length l)).
  - rewrite nth_error_app1 in H by lia. auto.
  - rewrite nth_error_app2 in H by lia. destruct (j - length l) as [|n] eqn:E.
    + injection H as <-. right. split; [lia|reflexivity].
    + destruct n; discriminate.
Qed.

Lemma add_step : forall g c s L key w c' s' r, geometry_ok g -> rep g c s L -> inited c = true ->
  add g c s key w = (c', s', r) ->
  ((r, []) = fst (ledger_step g L (CAdd key w)) /\
   rep g c' s' (snd (ledger_step g L (CAdd key w))) /\
   (inited c' = true \/ (inited c' = false /\ device_failed (CAdd key w) = true))) \/
  (r = MemoryCorrupted /\ add_when_full L (CAdd key w) /\ inited c' = false).
Proof.
  intros g c s L key w c' s' r G HR Hin H.
  pose proof (g_r g G). pose proof (g_c g G). pose proof (g_s g G).
  assert (NK : 2 <= num_keys g) by (unfold num_keys; nia).
  pose proof (r_rem _ _ _ _ HR) as Hrem. pose proof (r_add _ _ _ _ HR) as HA. pose proof (r_tot _ _ _ _ HR) as HT.
  pose proof (r_len _ _ _ _ HR) as HL. pose proof (r_cred _ _ _ _ HR) as HC.
  assert (HK : length (keys L) < num_keys g) by (unfold num_keys; lia).
  assert (Ha : add_i c < num_keys g) by (rewrite HA; apply pos_lt; lia).
  unfold add in H. destruct key as [|b key0]; [cbn in H; injection H as <- <- <-; cbn; auto|].
  set (key := b :: key0) in *. replace (length key =? 0) with false in H by (cbn; reflexivity).
  rewrite Hin, (r_err _ _ _ _ HR) in H. cbn [negb] in H.
  replace (num_keys g <=? add_i c) with false in H by lia.
  rewrite (is_full_spec g c s L G HR) in H.
  destruct (r_blocks _ _ _ _ HR) as [B1 B2].
  assert (Hph : (phys (slot c (add_i c)) < N.of_nat (S_ g))%N) by (apply B1; lia).
  replace (N.leb (N.of_nat (S_ g)) (phys (slot c (add_i c)))) with false in H by lia.
  destruct (debts L) as [|d t] eqn:ED.
  - destruct (N.leb (N.of_nat (R g)) (req (slot c (add_i c)))); injection H as <- <- <-.
    + right. cbn. auto.
    + left. unfold ledger_step, key. rewrite ED. cbn. auto.
  - left. destruct (r_debts _ _ _ _ HR 0 d) as [Hreq Hd]; [rewrite ED; reflexivity|].
    rewrite Nat.add_0_r, <- HA in Hreq. rewrite Hreq in H.
    replace (N.leb (N.of_nat (R g)) d) with false in H by lia.
    destruct (write_attempts MAX_RETRY s (phys (slot c (add_i c))) key w) as [s1 done] eqn:EW.
    apply written_attempts in EW. destruct EW as (-> & Hoth & Hdone).
    unfold ledger_step, key. rewrite ED. fold key. unfold device_failed.
    assert (Hcells : forall j, j < length (keys L) ->
      phys (slot c (pos (num_keys g) (rem_i c) j)) <> phys (slot c (add_i c))).
    { intros j Hj Hc. apply B2 in Hc; [| pose proof (pos_lt (num_keys g) (rem_i c) j); lia | lia].
      rewrite HA in Hc. apply pos_inj in Hc; lia. }
    destruct (written w) eqn:EWr.
    + cbn [fst snd negb].
      set (c1 := if _ <? C g then _ else c) in H.
      assert (H1' : infos c1 = infos c /\ rem_i c1 = rem_i c /\ add_i c1 = add_i c /\ free_i c1 = free_i c /\
        inited c1 = inited c /\ error_state c1 = error_state c /\
        credits c1 = upd (credits c) (N.to_nat d) (Nat.min (C g) (credit L d + 1))).
      { destruct (r_credit _ _ _ _ HR d Hd) as [Hcr Hcm]. rewrite Hcr in *.
        unfold c1. destruct (nth (N.to_nat d) (credits c) 0 <? C g) eqn:E; cbn; splits; auto.
        - rewrite Nat.min_r by lia. reflexivity.
        - rewrite Nat.min_l by lia. rewrite upd_same_val by lia. reflexivity. }
      clearbody c1. destruct H1' as (I1 & R1 & A1 & F1 & N1 & E1 & C1).
      assert (Sl : forall j, slot c1 j = slot c j) by (intros; unfold slot; rewrite I1; reflexivity).
      rewrite Sl in H.
      unfold increment in H. replace (add_i c <? num_keys g) with true in H by lia. rewrite mod_pos in H by lia.
      set (c2 := set_slot c1 (add_i c) _) in H.
      assert (Hs : forall j, slot c2 j = if add_i c =? j then Info Valid (phys (slot c j)) UNASSIGNED else slot c j).
      { intros j. unfold c2. rewrite slot_set by (rewrite I1; lia). rewrite Sl.
        destruct (add_i c =? j) eqn:E; [apply Nat.eqb_eq in E; rewrite E|]; reflexivity. }
      injection H as <- <- <-. split; [reflexivity|]. split; [|left; cbn; congruence].
      cbn [length] in HT.
      constructor; cbn [keys debts credit]; rewrite ?app_length; cbn [length].
      * cbn. rewrite E1. apply (r_err _ _ _ _ HR).
      * change (length (infos c2) = S_ g). unfold c2. rewrite infos_set_slot, I1. lia.
      * cbn. rewrite C1, length_upd. lia.
      * cbn. lia.
      * cbn. rewrite R1, HA. rewrite pos_add by (unfold num_keys in *; lia). reflexivity.
      * lia.
      * intros j k Hj. change (slot (set_add c2 (pos (num_keys g) (add_i c) 1))) with (slot c2).
        change (rem_i (set_add c2 (pos (num_keys g) (add_i c) 1))) with (rem_i c1). rewrite R1, Hs.
        apply nth_error_app_last in Hj. destruct Hj as [Hj|[-> ->]].
        -- assert (j < length (keys L)) by (apply nth_error_Some; congruence).
           destruct (r_keys _ _ _ _ HR j k Hj) as [V1 V2].
           replace (add_i c =? pos (num_keys g) (rem_i c) j) with false.
           ++ split; [exact V1|]. rewrite Hoth; [exact V2|]. apply Hcells. lia.
           ++ symmetry. apply Nat.eqb_neq. intros Hc. rewrite HA in Hc. apply pos_inj in Hc; lia.
        -- rewrite <- HA, Nat.eqb_refl. cbn. auto.
      * intros j d' Hj. change (slot (set_add c2 (pos (num_keys g) (add_i c) 1))) with (slot c2).
        change (rem_i (set_add c2 (pos (num_keys g) (add_i c) 1))) with (rem_i c1). rewrite R1, Hs.
        assert (j < length t) by (apply nth_error_Some; congruence).
        destruct (r_debts _ _ _ _ HR (S j) d') as [V1 V2]; [rewrite ED; exact Hj|].
        replace (length (keys L) + 1 + j) with (length (keys L) + S j) by lia.
        replace (add_i c =? pos (num_keys g) (rem_i c) (length (keys L) + S j)) with false; [auto|].
        symmetry. apply Nat.eqb_neq. intros Hc. rewrite HA in Hc. apply pos_inj in Hc; unfold num_keys in *; lia.
      * assert (Hp : forall j, phys (slot (set_add c2 (pos (num_keys g) (add_i c) 1)) j) = phys (slot c j)).
        { intros j. change (phys (slot c2 j) = phys (slot c j)). rewrite Hs. destruct (add_i c =? j); reflexivity. }
        split; intros *; rewrite !Hp; auto.
      * cbn. rewrite F1. apply (r_free _ _ _ _ HR).
      * change (credits (set_add c2 (pos (num_keys g) (add_i c) 1))) with (credits c1). rewrite C1.
        apply nth_add_to; auto; [apply (r_credit _ _ _ _ HR) | lia].
    + cbn [fst snd negb].
      injection H as <- <- <-. split; [reflexivity|].
      destruct (replace_block_spec g c (add_i c) _ G HL Ha (r_free _ _ _ _ HR) (conj B1 B2) eq_refl)
        as (P1 & P2 & P3 & P4 & P5 & P6 & P7 & P8 & P9).
      set (c' := replace_block g c (add_i c)) in *.
      split; [| destruct P1; [left; congruence | right; auto]].
      constructor; rewrite ?P2, ?P3, ?P4, ?P5, ?P6; auto; try apply HR.
      * intros j k Hj. assert (j < length (keys L)) by (apply nth_error_Some; congruence).
        destruct (r_keys _ _ _ _ HR j k Hj) as [V1 V2].
        destruct (P9 (pos (num_keys g) (rem_i c) j)) as (Q1 & Q2 & Q3); [apply pos_lt; lia|].
        rewrite Q1, Q3; [|intros Hc; rewrite HA in Hc; apply pos_inj in Hc; lia].
        split; [exact V1|]. rewrite Hoth; [exact V2|]. apply Hcells. lia.
      * intros j d' Hj. assert (Hjl : j < length (debts L)) by (apply nth_error_Some; congruence).
        rewrite ED in Hjl. cbn [length] in *.
        destruct (P9 (pos (num_keys g) (rem_i c) (length (keys L) + j))) as (Q1 & Q2 & Q3);
          [apply pos_lt; unfold num_keys in *; lia|].
        rewrite Q2. apply (r_debts _ _ _ _ HR). exact Hj.
Qed.

Lemma remove_step : forall g c s L q buf f e c' s' r, geometry_ok g -> rep g c s L -> inited c = true ->
  remove g c s q buf f e = (c', s', r) ->
  r = fst (ledger_step g L (CRemove q buf f e)) /\
  rep g c' s' (snd (ledger_step g L (CRemove q buf f e))) /\
  (inited c' = true \/ (inited c' = false /\ device_failed (CRemove q buf f e) = true)).
Proof.
  intros g c s L q buf f e c' s' r G HR Hin H.
  pose proof (g_r g G). pose proof (g_c g G). pose proof (g_s g G).
  assert (NK : 2 <= num_keys g) by (unfold num_keys; nia).
  pose proof (r_rem _ _ _ _ HR) as Hrem. pose proof (r_add _ _ _ _ HR) as HA. pose proof (r_tot _ _ _ _ HR) as HT.
  pose proof (r_len _ _ _ _ HR) as HL. pose proof (r_cred _ _ _ _ HR) as HC.
  unfold remove in H. rewrite Hin, (r_err _ _ _ _ HR) in H. cbn [negb] in H.
  unfold ledger_step. destruct (N.leb (N.of_nat (R g)) q) eqn:EQ.
  { injection H as <- <- <-. cbn. auto. }
  replace (num_keys g <? rem_i c) with false in H by lia.
  rewrite (is_empty_spec g c s L G HR) in H.
  destruct (keys L) as [|k t] eqn:EK.
  { injection H as <- <- <-. cbn. auto. }
  destruct (r_keys _ _ _ _ HR 0 k) as [V1 V2]; [rewrite EK; reflexivity|].
  rewrite pos_0 in V1, V2 by lia. rewrite V1 in H.
  destruct (r_blocks _ _ _ _ HR) as [B1 B2].
  assert (Hph : (phys (slot c (rem_i c)) < N.of_nat (S_ g))%N) by (apply B1; lia).
  replace (N.leb (N.of_nat (S_ g)) (phys (slot c (rem_i c)))) with false in H by lia.
  assert (Hq : (q < N.of_nat (R g))%N) by lia.
  destruct (r_credit _ _ _ _ HR q Hq) as [Hcr Hcm]. rewrite <- Hcr in H.
  destruct (credit L q =? 0) eqn:EC.
  { injection H as <- <- <-. cbn. auto. }
  destruct (try_erase s (phys (slot c (rem_i c))) e) as [s1 v] eqn:EE.
  assert (Hs1 : (forall x, x <> phys (slot c (rem_i c)) -> s1 x = s x) /\
     (v = Invalid /\ e = EDone \/ v = Corrupted /\ exists l, e = EFail l)).
  { unfold try_erase, store_erase in EE. destruct e as [|[]]; injection EE as <- <-;
      split; eauto; intros; apply put_other; auto. }
  destruct Hs1 as [Hoth Hv].
  set (c1 := match v with Invalid => c | _ => _ end) in H.
  assert (P : (inited c1 = inited c \/ (inited c1 = false /\ exists l, e = EFail l)) /\ error_state c1 = error_state c /\
    length (infos c1) = S_ g /\ credits c1 = credits c /\ rem_i c1 = rem_i c /\ add_i c1 = add_i c /\
    free_i c1 < S_ g /\ blocks_ok g c1 /\
    (forall j, j < num_keys g -> valid (slot c1 j) = valid (slot c j) /\ req (slot c1 j) = req (slot c j) /\
      (j <> rem_i c -> phys (slot c1 j) = phys (slot c j)))).
  { destruct (replace_block_spec g c (rem_i c) _ G HL Hrem (r_free _ _ _ _ HR) (conj B1 B2) eq_refl)
        as (P1 & P2 & P3 & P4 & P5 & P6 & P7 & P8 & P9).
    destruct Hv as [[-> ->]|[-> He]]; unfold c1.
    - splits; auto; apply HR.
    - splits; auto. tauto. }
  clearbody c1. destruct P as (P1 & P2 & P3 & P4 & P5 & P6 & P7 & P8 & P9).
  rewrite <- P5 in Hrem.
  destruct (release_spec g c1 q _ G P3 Hrem ltac:(congruence) Hq eq_refl)
    as (Q1 & Q2 & Q3 & Q4 & Q5 & Q6 & Q7 & Q8 & Q9 & Q10 & Q11).
  injection H as <- <- <-. set (c' := release_slot g c1 q) in *.
  cbn [fst snd]. split; [|split].
  - unfold store_read. rewrite V2. destruct f; cbn [orb]; [reflexivity|].
    rewrite Nat.ltb_antisym. destruct (length k <=? buf); reflexivity.
  - cbn [length] in HT. rewrite P5 in *.
    constructor; cbn [keys debts credit]; rewrite ?app_length; cbn [length].
    + rewrite Q2, P2. apply (r_err _ _ _ _ HR).
    + exact Q3.
    + rewrite Q4, length_upd. congruence.
    + rewrite Q5. apply pos_lt; lia.
    + rewrite Q6, P6, HA, Q5. cbn [length]. rewrite pos_add by (unfold num_keys in *; lia). reflexivity.
    + lia.
    + intros j k' Hj. assert (j < length t) by (apply nth_error_Some; congruence).
      rewrite Q5, pos_add by (unfold num_keys in *; lia). cbn [Nat.add].
      assert (Hne : pos (num_keys g) (rem_i c) (S j) <> rem_i c).
      { intros Hc. rewrite <- (pos_0 (num_keys g) (rem_i c)) in Hc at 2 by lia.
        apply pos_inj in Hc; unfold num_keys in *; lia. }
      destruct (r_keys _ _ _ _ HR (S j) k') as [W1 W2]; [rewrite EK; exact Hj|].
      destruct (P9 (pos (num_keys g) (rem_i c) (S j))) as (X1 & X2 & X3); [apply pos_lt; unfold num_keys in *; lia|].
      rewrite Q9 by exact Hne. rewrite X1. split; [exact W1|]. rewrite Q8, X3 by exact Hne.
      rewrite Hoth; [exact W2|]. intros Hc. apply B2 in Hc; [auto | | lia].
      pose proof (pos_lt (num_keys g) (rem_i c) (S j)). unfold num_keys in *. lia.
    + intros j d Hj.
      rewrite Q5, pos_add by (unfold num_keys in *; apply nth_error_Some_lt in Hj; rewrite app_length in Hj; cbn in Hj; lia).
      replace (1 + (length t + j)) with (S (length t) + j) by lia.
      apply nth_error_app_last in Hj. destruct Hj as [Hj|[-> ->]].
      * assert (j < length (debts L)) by (apply nth_error_Some; congruence).
        destruct (r_debts _ _ _ _ HR j d Hj) as [W1 W2]. rewrite EK in W1. cbn [length] in W1.
        split; [|exact W2].
        assert (Hne : pos (num_keys g) (rem_i c) (S (length t) + j) <> rem_i c).
        { intros Hc. rewrite <- (pos_0 (num_keys g) (rem_i c)) in Hc at 2 by lia.
          apply pos_inj in Hc; unfold num_keys in *; lia. }
        rewrite Q10; [| exact Hne | intros Hc; apply pos_inj in Hc; unfold num_keys in *; lia].
        destruct (P9 (pos (num_keys g) (rem_i c) (S (length t) + j))) as (X1 & X2 & X3);
          [apply pos_lt; unfold num_keys in *; lia|]. congruence.
      * split; [|exact Hq].
        replace (S (length t) + length (debts L)) with (num_keys g - 1) by (unfold num_keys in *; lia). exact Q11.
    + destruct P8 as [B1' B2']. split; intros *; rewrite !Q8; auto.
    + lia.
    + rewrite Q4, P4, <- Hcr. apply nth_add_to; auto; [apply (r_credit _ _ _ _ HR) | lia].
  - rewrite Q1. destruct P1 as [P1|[P1 [l ->]]]; [left; congruence | right; auto].
Qed.
