(** Initialising the cache: what the flash holds becomes the queue. *)
From Coq Require Import List NArith Bool Arith Lia Permutation ZifyBool ZifyNat ZifyN.
From Verif Require Import Base KeyCache_Model KeyCache_Spec KeyCache_Proofs.
Import ListNotations.

Lemma nth_swap : forall l i j k, i < length l -> j < length l ->
  nth k (swap l i j) zero_info =
  if j =? k then nth i l zero_info else if i =? k then nth j l zero_info else nth k l zero_info.
Proof.
  intros l i j k Hi Hj. unfold swap. destruct (j =? k) eqn:E.
  - apply Nat.eqb_eq in E. subst k. apply nth_upd_eq. rewrite length_upd. exact Hj.
  - apply Nat.eqb_neq in E. rewrite nth_upd_neq by exact E. destruct (i =? k) eqn:E'.
    + apply Nat.eqb_eq in E'. subst k. apply nth_upd_eq, Hi.
    + apply nth_upd_neq. apply Nat.eqb_neq, E'.
Qed.

Lemma swap_perm : forall l i j, i < length l -> j < length l -> Permutation l (swap l i j).
Proof.
  intros l i j Hi Hj. apply (Permutation_nth l (swap l i j) zero_info).
  split; [unfold swap; rewrite !length_upd; reflexivity|].
  exists (fun k => if j =? k then i else if i =? k then j else k). split; [|split].
  - intros k Hk. destruct (j =? k), (i =? k); lia.
  - intros a b Ha Hb. destruct (j =? a) eqn:E1, (i =? a) eqn:E2, (j =? b) eqn:E3, (i =? b) eqn:E4; lia.
  - intros k Hk. rewrite nth_swap by assumption. destruct (j =? k); [reflexivity|]. destruct (i =? k); reflexivity.
Qed.

Definition vat (l : list info) (i : nat) : validity := valid (nth i l zero_info).

Lemma same_validity_eq : forall a b, same_validity a b = true <-> a = b.
Proof. intros [] []; cbn; split; congruence. Qed.

Lemma vat_swap : forall l i j k, i < length l -> j < length l ->
  vat (swap l i j) k = if j =? k then vat l i else if i =? k then vat l j else vat l k.
Proof.
  intros. unfold vat. rewrite nth_swap by assumption. destruct (j =? k); [reflexivity|]. destruct (i =? k); reflexivity.
Qed.

Lemma arrange_spec : forall fuel l low mid high l' low' high', arrange_loop fuel low mid high l = (l', low', high') ->
  low <= mid -> mid <= high -> high < length l -> high - mid <= fuel ->
  (forall i, i < low -> vat l i = Valid) -> (forall i, low <= i < mid -> vat l i = Invalid) ->
  (forall i, high < i < length l -> vat l i = Corrupted) ->
  Permutation l l' /\ low' <= high' /\ high' < length l /\
  (forall i, i < low' -> vat l' i = Valid) /\ (forall i, low' <= i < high' -> vat l' i = Invalid) /\
  (forall i, high' < i < length l -> vat l' i = Corrupted) /\
  ((forall x, In x l -> valid x <> Corrupted) -> high' = high).
Proof.
  induction fuel as [|f IH]; intros l low mid high l' low' high' H Hlm Hmh Hh Hf Hv Hi Hc.
  - injection H as <- <- <-. assert (mid = high) by lia. subst mid. splits; auto.
  - cbn [arrange_loop] in H. destruct (mid <? high) eqn:E; [|injection H as <- <- <-; assert (mid = high) by lia;
      subst mid; splits; auto].
    destruct (valid (nth mid l zero_info)) eqn:EV.
    + apply IH in H; auto; try lia. intros i Hr. destruct (Nat.eq_dec i mid) as [->|]; [exact EV | apply Hi; lia].
    + (* a key *)
      set (l1 := if same_validity _ _ then l else swap l low mid) in H.
      assert (Hl1 : Permutation l l1 /\ length l1 = length l /\ (forall i, i < S low -> vat l1 i = Valid) /\
        (forall i, S low <= i < S mid -> vat l1 i = Invalid) /\
        (forall i, high < i < length l -> vat l1 i = Corrupted)).
      { unfold l1. destruct (same_validity (valid (nth low l zero_info)) Valid) eqn:ES.
        - apply same_validity_eq in ES. assert (low = mid).
          { destruct (Nat.eq_dec low mid); [assumption|]. exfalso. pose proof (Hi low ltac:(lia)) as Hx.
            unfold vat in Hx. congruence. }
          subst low. splits; auto.
          + intros i Hr. destruct (Nat.eq_dec i mid) as [->|]; [exact EV | apply Hv; lia].
          + intros i Hr. lia.
        - assert (Hne : low <> mid).
          { intros ->. rewrite EV in ES. discriminate. }
          splits; [apply swap_perm; lia | unfold swap; rewrite !length_upd; reflexivity | ..];
            intros i Hr; rewrite vat_swap by lia; destruct (mid =? i) eqn:E1, (low =? i) eqn:E2; try lia; auto.
          + apply Hv. lia.
          + apply Hi. lia.
          + apply Hi. lia. }
      destruct Hl1 as (P1 & L1 & V1 & V2 & V3). rewrite <- L1 in *.
      apply IH in H; auto; try lia. destruct H as (A1 & A2 & A3 & A4 & A5 & A6 & A7). splits; auto.
      * eapply Permutation_trans; eassumption.
      * intros HN. apply A7. intros x Hx. apply HN. eapply Permutation_in; [apply Permutation_sym, P1|exact Hx].
    + (* a bad block *)
      set (l1 := if same_validity _ _ then l else swap l mid high) in H.
      assert (Hl1 : Permutation l l1 /\ length l1 = length l /\ (forall i, i < low -> vat l1 i = Valid) /\
        (forall i, low <= i < mid -> vat l1 i = Invalid) /\
        (forall i, high - 1 < i < length l -> vat l1 i = Corrupted)).
      { unfold l1. destruct (same_validity Corrupted (valid (nth high l zero_info))) eqn:ES.
        - apply same_validity_eq in ES. splits; auto.
          intros i Hr. destruct (Nat.eq_dec i high) as [->|]; [symmetry; exact ES | apply Hc; lia].
        - splits; [apply swap_perm; lia | unfold swap; rewrite !length_upd; reflexivity | ..];
            intros i Hr; rewrite vat_swap by lia; destruct (high =? i) eqn:E1, (mid =? i) eqn:E2; try lia; auto.
          apply Hc. lia. }
      destruct Hl1 as (P1 & L1 & V1 & V2 & V3). rewrite <- L1 in *.
      replace (0 <? high) with true in H by lia.
      apply IH in H; auto; try lia. destruct H as (A1 & A2 & A3 & A4 & A5 & A6 & A7). splits; auto.
      * eapply Permutation_trans; eassumption.
      * intros HN. exfalso. apply (HN (nth mid l zero_info)); [apply nth_In; lia | exact EV].
Qed.

(** Looking at all blocks. *)
Definition looked (s : store) (k : N -> look) (j : nat) : store * validity :=
  validate_block s (N.of_nat j) (k (N.of_nat j)).

Lemma validate_block_local : forall s1 s2 id k, s1 id = s2 id ->
  snd (validate_block s1 id k) = snd (validate_block s2 id k) /\
  fst (validate_block s1 id k) id = fst (validate_block s2 id k) id.
Proof.
  intros s1 s2 id k H. unfold validate_block, try_erase, store_erase. rewrite <- H.
  destruct (s1 id) as [x|] eqn:E; [destruct (look_fault k)|]; try (destruct (look_erase k) as [|[]]); cbn;
    rewrite ?put_same; split; congruence.
Qed.

Lemma validate_block_other : forall s id k x, x <> id -> fst (validate_block s id k) x = s x.
Proof.
  intros s id k x H. unfold validate_block, try_erase, store_erase.
  destruct (s id) as [y|]; [destruct (look_fault k)|]; try (destruct (look_erase k) as [|[]]); cbn;
    rewrite ?put_other by assumption; reflexivity.
Qed.

Lemma validate_all_spec : forall n i c s k c' s', validate_all n i c s k = (c', s') ->
  i + n <= length (infos c) ->
  length (infos c') = length (infos c) /\ credits c' = credits c /\ error_state c' = error_state c /\
  (forall j, ~ (i <= j < i + n) -> slot c' j = slot c j) /\
  (forall j, i <= j < i + n -> valid (slot c' j) = snd (looked s k j) /\ phys (slot c' j) = (N.of_nat j mod 1024)%N /\
     s' (N.of_nat j) = fst (looked s k j) (N.of_nat j)) /\
  (forall x, (forall j, i <= j < i + n -> x <> N.of_nat j) -> s' x = s x).
Proof.
  induction n as [|n IH]; intros i c s k c' s' H Hl; cbn [validate_all] in H.
  - injection H as <- <-. splits; auto. intros; lia.
  - destruct (validate_block s (N.of_nat i) (k (N.of_nat i))) as [s1 v] eqn:EB.
    set (c1 := set_slot c i _) in H.
    assert (L1 : length (infos c1) = length (infos c)) by apply infos_set_slot.
    apply IH in H; [|lia]. destruct H as (A1 & A2 & A3 & A4 & A5 & A6).
    splits; try congruence.
    + rewrite A2. reflexivity.
    + rewrite A3. reflexivity.
    + intros j Hj. rewrite A4 by lia. unfold c1. rewrite slot_set by lia. replace (i =? j) with false by lia. reflexivity.
    + intros j Hj. destruct (Nat.eq_dec i j) as [<-|Hne].
      * unfold looked. rewrite EB. cbn [fst snd]. rewrite A4 by lia. unfold c1. rewrite slot_set by lia.
        rewrite Nat.eqb_refl. cbn. splits; auto. apply A6. intros; lia.
      * destruct (A5 j ltac:(lia)) as (B1 & B2 & B3). unfold looked in *.
        assert (Hsj : s1 (N.of_nat j) = s (N.of_nat j)).
        { replace s1 with (fst (validate_block s (N.of_nat i) (k (N.of_nat i)))) by (rewrite EB; reflexivity).
          apply validate_block_other. lia. }
        destruct (validate_block_local s1 s (N.of_nat j) (k (N.of_nat j)) Hsj) as [D1 D2].
        splits; congruence.
    + intros x Hx. rewrite A6 by (intros; apply Hx; lia).
      replace s1 with (fst (validate_block s (N.of_nat i) (k (N.of_nat i)))) by (rewrite EB; reflexivity).
      apply validate_block_other. apply Hx. lia.
Qed.

Lemma looked_valid : forall s k j, snd (looked s k j) = Valid <-> readable s k (N.of_nat j) = true.
Proof.
  intros s k j. unfold looked, validate_block, readable, try_erase, store_erase.
  destruct (s (N.of_nat j)); [destruct (look_fault (k (N.of_nat j)))|];
    try (destruct (look_erase (k (N.of_nat j))) as [|[]]); cbn; split; congruence.
Qed.

Lemma looked_kept : forall s k j, snd (looked s k j) = Valid -> fst (looked s k j) (N.of_nat j) = s (N.of_nat j) /\
  s (N.of_nat j) <> None.
Proof.
  intros s k j. unfold looked, validate_block, try_erase, store_erase.
  destruct (s (N.of_nat j)) eqn:E; [destruct (look_fault (k (N.of_nat j)))|];
    try (destruct (look_erase (k (N.of_nat j))) as [|[]]); cbn; split; congruence.
Qed.

Lemma looked_corrupted : forall s k j, look_erase (k (N.of_nat j)) = EDone -> snd (looked s k j) <> Corrupted.
Proof.
  intros s k j H. unfold looked, validate_block, try_erase, store_erase. rewrite H.
  destruct (s (N.of_nat j)); [destruct (look_fault (k (N.of_nat j)))|]; cbn; discriminate.
Qed.

(** Handing out the credits. *)
Definition mine (g : geometry) (v : nat -> validity) (i n : nat) (r : nat) : nat :=
  length (filter (fun j => same_validity (v j) Valid && (j mod R g =? r)) (seq i n)).

Lemma mod_succ : forall i r, 1 <= r -> (if i mod r <? r then (i mod r + 1) mod r else 0) = S i mod r.
Proof.
  intros i r H. assert (i mod r < r) by (apply Nat.mod_upper_bound; lia).
  replace (i mod r <? r) with true by lia.
  rewrite Nat.add_mod_idemp_l by lia. f_equal. lia.
Qed.

Lemma assign_spec : forall n i g c, geometry_ok g -> i + n <= length (infos c) -> length (credits c) = R g ->
  (forall r, r < R g -> nth r (credits c) 0 <= C g) ->
  let c' := assign n i g c (N.of_nat (i mod R g)) in
  inited c' = inited c /\ error_state c' = error_state c /\ add_i c' = add_i c /\ rem_i c' = rem_i c /\
  free_i c' = free_i c /\ length (infos c') = length (infos c) /\ length (credits c') = R g /\
  (forall j, valid (slot c' j) = valid (slot c j) /\ phys (slot c' j) = phys (slot c j)) /\
  (forall j, ~ (i <= j < i + n) -> slot c' j = slot c j) /\
  (forall j, i <= j < i + n -> valid (slot c j) <> Valid -> req (slot c' j) = N.of_nat (j mod R g)) /\
  (forall r, r < R g -> nth r (credits c') 0 =
     Nat.min (C g) (nth r (credits c) 0 + mine g (fun j => valid (slot c j)) i n r)).
Proof.
  induction n as [|n IH]; intros i g c G Hl Hcl Hcm c'.
  - subst c'. cbn [assign]. splits; auto; try (intros; lia).
    intros r Hr. unfold mine. cbn. rewrite Nat.add_0_r, Nat.min_r; auto.
  - subst c'. cbn [assign]. pose proof (g_r g G) as GR. pose proof (g_r16 g G) as GR16.
    assert (Hm : i mod R g < R g) by (apply Nat.mod_upper_bound; lia).
    rewrite !Nat2N.id. set (rq := N.of_nat (i mod R g)).
    set (c1 := set_slot c i (Info (valid (slot c i)) (phys (slot c i)) rq)).
    assert (S1 : forall j, slot c1 j = if i =? j then Info (valid (slot c j)) (phys (slot c j)) rq else slot c j).
    { intros j. unfold c1. rewrite slot_set by lia. destruct (i =? j) eqn:E; [|reflexivity].
      apply Nat.eqb_eq in E. subst j. reflexivity. }
    assert (L1 : length (infos c1) = length (infos c)) by apply infos_set_slot.
    change (credits c1) with (credits c).
    set (have := nth (i mod R g) (credits c) 0).
    set (c2 := match valid (slot c1 i) with Valid => _ | _ => c1 end).
    assert (H2 : inited c2 = inited c /\ error_state c2 = error_state c /\ add_i c2 = add_i c /\ rem_i c2 = rem_i c /\
      free_i c2 = free_i c /\ length (infos c2) = length (infos c) /\ length (credits c2) = R g /\
      (forall j, valid (slot c2 j) = valid (slot c j) /\ phys (slot c2 j) = phys (slot c j)) /\
      (forall j, j <> i -> slot c2 j = slot c j) /\
      (valid (slot c i) <> Valid -> req (slot c2 i) = rq) /\
      (forall r, r < R g -> nth r (credits c2) 0 =
         Nat.min (C g) (nth r (credits c) 0 + if same_validity (valid (slot c i)) Valid && (i mod R g =? r) then 1 else 0))).
    { assert (B1 : forall j, j <> i -> slot c1 j = slot c j)
        by (intros j Hj; rewrite S1; replace (i =? j) with false by lia; reflexivity).
      assert (B2 : forall j, valid (slot c1 j) = valid (slot c j) /\ phys (slot c1 j) = phys (slot c j))
        by (intros j; rewrite S1; destruct (i =? j); auto).
      assert (B3 : req (slot c1 i) = rq) by (rewrite S1, Nat.eqb_refl; reflexivity).
      assert (B4 : forall r, r < R g -> nth r (credits c) 0 = Nat.min (C g) (nth r (credits c) 0 + 0))
        by (intros r Hr; rewrite Nat.add_0_r, Nat.min_r; auto).
      unfold c2. rewrite (proj1 (B2 i)). destruct (valid (slot c i)) eqn:EV; cbn [same_validity andb].
      - splits; auto.
      - destruct (have <? C g) eqn:EH.
        + set (c1' := set_credits c1 (upd (credits c) (i mod R g) (have + 1))).
          assert (S2 : forall j, slot (set_slot c1' i (Info Valid (phys (slot c1 i)) UNASSIGNED)) j =
             if i =? j then Info Valid (phys (slot c j)) UNASSIGNED else slot c j).
          { intros j. rewrite slot_set by (change (infos c1') with (infos c1); lia).
            destruct (i =? j) eqn:E; [apply Nat.eqb_eq in E; subst j; rewrite (proj2 (B2 i)); reflexivity|].
            change (slot c1' j) with (slot c1 j). apply B1. lia. }
          splits; auto.
          * rewrite infos_set_slot. exact L1.
          * cbn. rewrite length_upd. exact Hcl.
          * intros j. rewrite S2. destruct (i =? j) eqn:E; [|auto]. apply Nat.eqb_eq in E. subst j. cbn. auto.
          * intros j Hj. rewrite S2. replace (i =? j) with false by lia. reflexivity.
          * congruence.
          * intros r Hr. change (credits (set_slot c1' i (Info Valid (phys (slot c1 i)) UNASSIGNED)))
              with (upd (credits c) (i mod R g) (have + 1)).
            destruct (i mod R g =? r) eqn:E.
            -- apply Nat.eqb_eq in E. subst r. rewrite nth_upd_eq by lia. fold have. lia.
            -- rewrite nth_upd_neq by lia. apply B4, Hr.
        + splits; auto. intros r Hr. change (credits c1) with (credits c). destruct (i mod R g =? r) eqn:E; [|apply B4, Hr].
          apply Nat.eqb_eq in E. subst r. pose proof (Hcm _ Hm). fold have. fold have in H. lia.
      - splits; auto. }
    clearbody c2. destruct H2 as (D1 & D2 & D3 & D4 & D5 & D6 & D7 & D8 & D9 & D10 & D11).
    unfold increment. replace (i mod R g <? R g) with true by lia.
    pose proof (mod_succ i (R g) GR) as HS. replace (i mod R g <? R g) with true in HS by lia. rewrite HS.
    assert (Hm' : S i mod R g < R g) by (apply Nat.mod_upper_bound; lia).
    rewrite N.mod_small by lia.
    specialize (IH (S i) g c2 G ltac:(lia) D7).
    destruct IH as (A1 & A2 & A3 & A4 & A5 & A6 & A7 & A8 & A9 & A10 & A11).
    { intros r Hr. rewrite D11 by exact Hr. lia. }
    splits; try congruence.
    + intros j. destruct (A8 j), (D8 j). split; congruence.
    + intros j Hj. rewrite A9 by lia. apply D9. lia.
    + intros j Hj Hv. destruct (Nat.eq_dec j i) as [->|Hne].
      * rewrite A9 by lia. apply D10, Hv.
      * apply A10; [lia|]. rewrite (proj1 (D8 j)). exact Hv.
    + intros r Hr. rewrite A11, D11 by exact Hr. unfold mine. cbn [seq filter].
      assert (HF : forall l, filter (fun j => same_validity (valid (slot c2 j)) Valid && (j mod R g =? r)) l =
         filter (fun j => same_validity (valid (slot c j)) Valid && (j mod R g =? r)) l).
      { intros l. apply filter_ext. intros j. rewrite (proj1 (D8 j)). reflexivity. }
      rewrite HF. clear. generalize (nth r (credits c) 0). intros x.
      destruct (same_validity (valid (slot c i)) Valid && (i mod R g =? r)); cbn [length];
        generalize (length (filter (fun j => same_validity (valid (slot c j)) Valid && (j mod R g =? r)) (seq (S i) n)));
        intros y; lia.
Qed.

(** How many of the numbers from [a] on fall to requestor [r]. *)
Definition falls (m a n r : nat) : nat := length (filter (fun j => j mod m =? r) (seq a n)).

Lemma falls_app : forall m a n n' r, falls m a (n + n') r = falls m a n r + falls m (a + n) n' r.
Proof. intros. unfold falls. rewrite seq_app, filter_app, app_length. reflexivity. Qed.

Lemma falls_one : forall n r, length (filter (fun j => j =? r) (seq 0 n)) = if r <? n then 1 else 0.
Proof.
  induction n as [|n IH]; intros r; [reflexivity|].
  rewrite seq_S, filter_app, app_length, IH. cbn [Nat.add filter].
  destruct (r <? n) eqn:E1, (n =? r) eqn:E2, (r <? S n) eqn:E3; cbn [length]; lia.
Qed.

Lemma filter_map_length : forall (A B : Type) (f : A -> B) (p : B -> bool) l,
  length (filter p (map f l)) = length (filter (fun x => p (f x)) l).
Proof.
  intros A B f p l. induction l as [|x l IH]; [reflexivity|]. cbn. destruct (p (f x)); cbn; lia.
Qed.

Lemma seq_shift_map : forall n a b, seq (a + b) n = map (fun x => b + x) (seq a n).
Proof.
  induction n as [|n IH]; intros a b; [reflexivity|]. cbn [seq map]. f_equal; [lia|].
  replace (S (a + b)) with (S a + b) by lia. apply IH.
Qed.

Lemma falls_round : forall m c r, r < m -> falls m (m * c) m r = 1.
Proof.
  intros m c r H. unfold falls. rewrite <- (Nat.add_0_l (m * c)), seq_shift_map, filter_map_length.
  rewrite (filter_ext_in _ (fun j => j =? r)).
  - rewrite falls_one. replace (r <? m) with true by lia. reflexivity.
  - intros j Hj. apply in_seq in Hj. f_equal. rewrite Nat.mul_comm, Nat.add_comm, Nat.mod_add by lia.
    apply Nat.mod_small. lia.
Qed.

Lemma falls_all : forall m c r, r < m -> falls m 0 (m * c) r = c.
Proof.
  intros m c r H. induction c as [|c IH].
  - rewrite Nat.mul_0_r. reflexivity.
  - replace (m * S c) with (m * c + m) by lia. rewrite falls_app, IH, Nat.add_0_l, falls_round by exact H. lia.
Qed.

Lemma falls_owed : forall m a n r, count_occ N.eq_dec (map (fun j => N.of_nat (j mod m)) (seq a n)) (N.of_nat r) =
  falls m a n r.
Proof.
  intros m a n r. unfold falls. generalize (seq a n). intros l. induction l as [|x l IH]; [reflexivity|].
  cbn [map filter]. destruct (x mod m =? r) eqn:E.
  - rewrite count_occ_cons_eq by lia. cbn [length]. lia.
  - rewrite count_occ_cons_neq by lia. exact IH.
Qed.

Lemma count_valid : forall l (n : nat), (forall i, i < n -> i < length l -> vat l i = Valid) ->
  (forall i, n < i < length l -> vat l i <> Valid) ->
  length (filter (fun x => same_validity (valid x) Valid) l) <= S n.
Proof.
  induction l as [|x l IH]; intros n H1 H2; [cbn; lia|].
  cbn [filter]. destruct n as [|n].
  - assert (Hl : length (filter (fun x => same_validity (valid x) Valid) l) = 0).
    { assert (HF : forall y, In y l -> valid y <> Valid).
      { intros y Hy. apply In_nth with (d := zero_info) in Hy. destruct Hy as (i & Hi & <-).
        apply (H2 (S i)). cbn. lia. }
      clear -HF. induction l as [|y l IHl]; [reflexivity|]. cbn [filter].
      destruct (same_validity (valid y) Valid) eqn:E.
      - exfalso. apply (HF y); [left; reflexivity|]. apply same_validity_eq, E.
      - apply IHl. intros z Hz. apply HF. right. exact Hz. }
    destruct (same_validity (valid x) Valid); cbn [length]; lia.
  - assert (HI : length (filter (fun x => same_validity (valid x) Valid) l) <= S n).
    { apply IH.
      - intros i Hi Hl. apply (H1 (S i)); cbn; lia.
      - intros i Hi. apply (H2 (S i)). cbn. lia. }
    destruct (same_validity (valid x) Valid); cbn [length]; lia.
Qed.

Lemma nth_repeat_0 : forall n m, nth n (repeat 0 m) 0 = 0.
Proof. intros n m. revert n. induction m; intros [|n]; cbn; auto. Qed.

Lemma NoDup_map_in : forall (A B : Type) (f : A -> B) l, NoDup l ->
  (forall a b, In a l -> In b l -> f a = f b -> a = b) -> NoDup (map f l).
Proof.
  intros A B f l H. induction H as [|x l Hx Hl IH]; intros Hinj; [constructor|].
  cbn [map]. constructor.
  - intros Hc. apply in_map_iff in Hc. destruct Hc as (y & Hy & Hin).
    apply Hx. rewrite <- (Hinj y x); [exact Hin | right; exact Hin | left; reflexivity | exact Hy].
  - apply IH. intros a b Ha Hb. apply Hinj; right; assumption.
Qed.

Definition key_at (s : store) (c : cache) (j : nat) : list N :=
  match s (phys (slot c j)) with Some k => k | None => [] end.

Lemma initialize_spec : forall g c s k c' s' st, geometry_ok g -> length (infos c) = S_ g ->
  length (credits c) = R g -> (forall r, r < R g -> nth r (credits c) 0 <= C g) ->
  initialize g c s k = (c', s', st) ->
  st = Ok /\ inited c' = true /\ length (infos c') = S_ g /\ length (credits c') = R g /\
  (forall r, r < R g -> nth r (credits c') 0 <= C g) /\
  (erases_work g k -> error_state c' = error_state c) /\
  (error_state c' = false -> exists L, starts g s k s' L /\ rep g c' s' L /\
    ((forall r, nth r (credits c) 0 = 0) ->
     length (keys L) = R g * C g \/ (erases_work g k /\ num_keys g < S_ g) -> shares g L)).
Proof.
  intros g c s k c' s' st G HL HC Hcm H.
  pose proof (g_r g G) as GR. pose proof (g_c g G) as GC. pose proof (g_s g G) as GS. pose proof (g_s10 g G) as G10.
  assert (NK : 2 <= num_keys g) by (unfold num_keys; nia).
  unfold initialize in H. destruct (validate_all (S_ g) 0 c s k) as [c1 s1] eqn:EV.
  apply validate_all_spec in EV; [|lia]. destruct EV as (V1 & V2 & V3 & V4 & V5 & V6).
  unfold arrange in H. replace (S_ g =? 0) with false in H by lia.
  destruct (arrange_loop (S_ g) 0 0 (S_ g - 1) (infos c1)) as [[l low] high] eqn:EA.
  apply arrange_spec in EA; try lia. 
  destruct EA as (A1 & A2 & A3 & A4 & A5 & A6 & A7).
  assert (Hll : length l = S_ g) by (rewrite <- (Permutation_length A1); lia).
  set (adx := if num_keys g <=? low then num_keys g - 1 else low) in H.
  set (c2 := set_free _ high) in H.
  assert (I2 : infos c2 = l /\ credits c2 = credits c /\ add_i c2 = adx /\ rem_i c2 = 0 /\ free_i c2 = high /\
    error_state c2 = (if high + 1 <? num_keys g then true else error_state c)).
  { unfold c2. destruct (high + 1 <? num_keys g); cbn; splits; auto. }
  destruct I2 as (I2 & C2 & D2 & R2 & F2 & E2). clearbody c2.
  assert (HA : 0 + num_keys g <= length (infos c2)) by (rewrite I2; lia).
  destruct (assign_spec (num_keys g) 0 g c2 G HA) as (B1 & B2 & B3 & B4 & B5 & B6 & B7 & B8 & B9 & B10 & B11).
  { rewrite C2. exact HC. }
  { rewrite C2. exact Hcm. }
  assert (HR0 : R g <> 0) by (clear -GR; lia). rewrite Nat.mod_0_l in * by exact HR0. change (N.of_nat 0) with 0%N in *.
  set (c3 := assign (num_keys g) 0 g c2 0) in *. clearbody c3.
  injection H as <- <- <-.
  assert (Sl : forall j, valid (slot (set_inited c3 true) j) = vat l j /\
     phys (slot (set_inited c3 true) j) = phys (nth j l zero_info)).
  { intros j. change (slot (set_inited c3 true) j) with (slot c3 j). destruct (B8 j) as [X Y]. rewrite X, Y.
    unfold slot, vat. rewrite I2. auto. }
  assert (Fr : forall x, In x l -> exists j, j < S_ g /\ x = slot c1 j).
  { intros x Hx. apply Permutation_in with (l' := infos c1) in Hx; [|apply Permutation_sym, A1].
    apply In_nth with (d := zero_info) in Hx. destruct Hx as (j & Hj & <-). exists j. split; [lia|reflexivity]. }
  assert (Ph : forall j, j < S_ g -> phys (slot c1 j) = N.of_nat j).
  { intros j Hj. destruct (V5 j ltac:(lia)) as (_ & Hp & _). rewrite Hp. apply N.mod_small. lia. }
  assert (NDl : NoDup (map phys l)).
  { eapply Permutation_NoDup; [apply Permutation_map, A1|].
    apply (NoDup_nth _ 0%N). intros a b Ha Hb. rewrite map_length in *.
    change 0%N with (phys zero_info). rewrite !map_nth. change (nth a (infos c1) zero_info) with (slot c1 a).
    change (nth b (infos c1) zero_info) with (slot c1 b). rewrite !Ph by lia. lia. }
  assert (Inj : forall i j, i < S_ g -> j < S_ g -> phys (nth i l zero_info) = phys (nth j l zero_info) -> i = j).
  { intros i j Hi Hj Heq. apply (NoDup_nth (map phys l) 0%N); rewrite ?map_length; try lia; auto.
    change 0%N with (phys zero_info). rewrite !map_nth. exact Heq. }
  assert (Vk : forall j, j < S_ g -> vat l j = Valid -> exists key, let id := phys (nth j l zero_info) in
     In id (block_ids g) /\ readable s k id = true /\ s id = Some key /\ s1 id = Some key).
  { intros j Hj Hv. destruct (Fr (nth j l zero_info)) as (i & Hi & Heq); [apply nth_In; lia|].
    unfold vat in Hv. rewrite Heq in *. cbv zeta. rewrite Ph by exact Hi.
    destruct (V5 i ltac:(lia)) as (W1 & _ & W3). rewrite W1 in Hv.
    destruct (looked_kept s k i Hv) as [K1 K2]. rewrite K1 in W3.
    destruct (s (N.of_nat i)) as [key|] eqn:Es; [|congruence]. exists key. splits; auto.
    - unfold block_ids. apply in_map, in_seq. lia.
    - apply looked_valid, Hv. }
  assert (ErrW : erases_work g k -> high = S_ g - 1).
  { intros HE. apply A7. intros x Hx. apply In_nth with (d := zero_info) in Hx. destruct Hx as (i & Hi & <-).
    change (nth i (infos c1) zero_info) with (slot c1 i). destruct (V5 i ltac:(lia)) as (W1 & _ & _). rewrite W1.
    apply looked_corrupted, HE. unfold block_ids. apply in_map, in_seq. lia. }
  split; [reflexivity|]. split; [reflexivity|].
  split; [cbn; rewrite B6, I2; exact Hll|]. split; [exact B7|].
  split; [intros r Hr; change (credits (set_inited c3 true)) with (credits c3); rewrite B11 by exact Hr; lia|].
  split.
  { intros HE. cbn. rewrite B2, E2. rewrite (ErrW HE). replace (S_ g - 1 + 1 <? num_keys g) with false by lia. reflexivity. }
  intros Herr. cbn in Herr. rewrite B2, E2 in Herr.
  destruct (high + 1 <? num_keys g) eqn:EH; [discriminate|].
  set (q := Nat.min low (num_keys g - 1)).
  assert (Hq : adx = q) by (unfold adx, q; destruct (num_keys g <=? low) eqn:E; lia).
  assert (HRC : num_keys g - 1 = R g * C g) by (unfold num_keys; lia).
  set (c' := set_inited c3 true) in *.
  exists (Ledger (map (key_at s1 c') (seq 0 q)) (map (fun j => N.of_nat (j mod R g)) (seq q (R g * C g - q)))
     (fun r => nth (N.to_nat r) (credits c') 0)).
  assert (Hcr : forall r, r < R g -> nth r (credits c') 0 =
     Nat.min (C g) (nth r (credits c) 0 + mine g (vat l) 0 (num_keys g) r)).
  { intros r Hr. change (credits c') with (credits c3). rewrite B11 by exact Hr. rewrite C2. f_equal. f_equal.
    unfold mine. f_equal. apply filter_ext. intros j. unfold slot, vat. rewrite I2. reflexivity. }
  assert (Kj : forall j, j < q -> let id := phys (nth j l zero_info) in
     In id (block_ids g) /\ readable s k id = true /\ s id = Some (key_at s1 c' j) /\ s1 id = Some (key_at s1 c' j)).
  { intros j Hj. destruct (Vk j) as (key & X1 & X2 & X3 & X4); [lia | apply A4; lia |].
    unfold key_at. rewrite (proj2 (Sl j)), X4. splits; auto. }
  split; [|split].
  - constructor; cbn [keys debts credit]; rewrite ?map_length, ?seq_length.
    + exists (map (fun j => phys (nth j l zero_info)) (seq 0 q)). split.
      * apply NoDup_map_in; [apply seq_NoDup|]. intros a b Ha Hb Heq. apply in_seq in Ha, Hb.
        apply Inj in Heq; lia.
      * assert (HF : forall js, (forall j, In j js -> j < q) ->
          Forall2 (fun id key => In id (block_ids g) /\ readable s k id = true /\ s id = Some key /\ s1 id = Some key)
           (map (fun j => phys (nth j l zero_info)) js) (map (key_at s1 c') js)).
        { induction js as [|j js IHj]; intros Hjs; [constructor|]. cbn [map]. constructor.
          - apply Kj, Hjs. left. reflexivity.
          - apply IHj. intros; apply Hjs; right; assumption. }
        apply HF. intros j Hj. apply in_seq in Hj. lia.
    + lia.
    + apply Forall_forall. intros d Hd. apply in_map_iff in Hd. destruct Hd as (j & <- & _).
      assert (j mod R g < R g) by (apply Nat.mod_upper_bound; lia). lia.
    + intros r Hr. rewrite Hcr by lia. lia.
    + intros HE. destruct (Nat.le_gt_cases (num_keys g - 1) low) as [Hlow|Hlow]; [left; lia|right].
      assert (Hql : q = low) by lia. rewrite Hql.
      assert (HP : length (filter (readable s k) (block_ids g)) =
         length (filter (fun x => same_validity (valid x) Valid) (infos c1))).
      { unfold block_ids. rewrite filter_map_length.
        assert (HI : infos c1 = map (slot c1) (seq 0 (S_ g))).
        { apply (nth_ext _ _ zero_info (slot c1 0)); [rewrite map_length, seq_length; lia|].
          intros n Hn. rewrite map_nth, seq_nth by lia. reflexivity. }
        rewrite HI, filter_map_length. f_equal. apply filter_ext_in. intros j Hj. apply in_seq in Hj.
        destruct (V5 j ltac:(lia)) as (W1 & _ & _). rewrite W1.
        destruct (readable s k (N.of_nat j)) eqn:ER.
        - apply looked_valid in ER. rewrite ER. reflexivity.
        - destruct (snd (looked s k j)) eqn:EL; try reflexivity. apply looked_valid in EL. congruence. }
      rewrite HP.
      assert (HPm : forall l1 l2, Permutation l1 l2 -> length (filter (fun x => same_validity (valid x) Valid) l1) =
        length (filter (fun x => same_validity (valid x) Valid) l2)).
      { clear. intros l1 l2 HP. induction HP; cbn; try lia.
        - destruct (same_validity (valid x) Valid); cbn; lia.
        - destruct (same_validity (valid x) Valid), (same_validity (valid y) Valid); cbn; lia. }
      rewrite (HPm _ _ A1). rewrite (ErrW HE) in *.
      destruct (Nat.eq_dec low (S_ g - 1)) as [Heq|Hne].
      * apply count_valid; [intros; apply A4; lia|]. intros i Hi. lia.
      * (* every slot between low and the last holds no key; count the last separately *)
        assert (HC2 : length (filter (fun x => same_validity (valid x) Valid) l) <= S low).
        { rewrite <- (firstn_skipn (S_ g - 1) l), filter_app, app_length.
          assert (Hf : length (filter (fun x => same_validity (valid x) Valid) (firstn (S_ g - 1) l)) <= low).
          { destruct (Nat.eq_dec low 0) as [H0|H0].
            - rewrite H0 in *. assert (HZ : filter (fun x => same_validity (valid x) Valid) (firstn (S_ g - 1) l) = []).
              { rewrite (filter_ext_in _ (fun _ => false)).
                - clear. induction (firstn (S_ g - 1) l); auto.
                - intros x Hx. apply In_nth with (d := zero_info) in Hx. destruct Hx as (i & Hi & <-).
                  rewrite firstn_length in Hi. 
                  assert (Hn : nth i (firstn (S_ g - 1) l) zero_info = nth i l zero_info).
                  { rewrite <- (firstn_skipn (S_ g - 1) l) at 2. rewrite app_nth1; [reflexivity|].
                    rewrite firstn_length. lia. }
                  rewrite Hn. pose proof (A5 i ltac:(lia)) as Hv. unfold vat in Hv. rewrite Hv. reflexivity. }
              rewrite HZ. cbn. lia.
            - apply Nat.le_trans with (S (low - 1)); [|lia]. apply count_valid.
              + intros i Hi Hi'. rewrite firstn_length in Hi'.
                assert (Hn : nth i (firstn (S_ g - 1) l) zero_info = nth i l zero_info).
                { rewrite <- (firstn_skipn (S_ g - 1) l) at 2. rewrite app_nth1; [reflexivity|].
                  rewrite firstn_length. lia. }
                unfold vat. rewrite Hn. apply A4. lia.
              + intros i Hi. rewrite firstn_length in Hi.
                assert (Hn : nth i (firstn (S_ g - 1) l) zero_info = nth i l zero_info).
                { rewrite <- (firstn_skipn (S_ g - 1) l) at 2. rewrite app_nth1; [reflexivity|].
                  rewrite firstn_length. lia. }
                unfold vat. rewrite Hn. pose proof (A5 i ltac:(lia)) as Hv. unfold vat in Hv. congruence. }
          assert (Hs : length (filter (fun x => same_validity (valid x) Valid) (skipn (S_ g - 1) l)) <= 1).
          { assert (Hsl : length (skipn (S_ g - 1) l) = 1) by (rewrite skipn_length; lia).
            destruct (skipn (S_ g - 1) l) as [|x [|]]; cbn in Hsl; try lia. cbn.
            destruct (same_validity (valid x) Valid); cbn; lia. }
          lia. }
        exact HC2.
  - constructor; cbn [keys debts credit]; rewrite ?map_length, ?seq_length.
    + cbn. rewrite B2, E2. exact Herr.
    + cbn. rewrite B6, I2. exact Hll.
    + exact B7.
    + cbn. rewrite B4, R2. lia.
    + cbn. rewrite B3, B4, D2, R2, Hq. unfold pos. replace (0 + q <? num_keys g) with true by lia. lia.
    + lia.
    + intros j key Hj. change (rem_i c') with (rem_i c3). rewrite B4, R2.
      assert (Hjq : j < q) by (apply nth_error_Some_lt in Hj; rewrite map_length, seq_length in Hj; exact Hj).
      replace (pos (num_keys g) 0 j) with j by (unfold pos; replace (0 + j <? num_keys g) with true by lia; lia).
      rewrite (proj1 (Sl j)), (proj2 (Sl j)). split; [apply A4; lia|].
      rewrite nth_error_map in Hj. rewrite (nth_error_nth' _ 0) in Hj by (rewrite seq_length; lia).
      rewrite seq_nth in Hj by lia. cbn in Hj. injection Hj as <-. apply Kj. exact Hjq.
    + intros j d Hj. change (rem_i c') with (rem_i c3). rewrite B4, R2.
      assert (Hjq : j < R g * C g - q) by (apply nth_error_Some_lt in Hj; rewrite map_length, seq_length in Hj; exact Hj).
      replace (pos (num_keys g) 0 (q + j)) with (q + j)
        by (unfold pos; replace (0 + (q + j) <? num_keys g) with true by lia; lia).
      rewrite nth_error_map in Hj. rewrite (nth_error_nth' _ 0) in Hj by (rewrite seq_length; lia).
      rewrite seq_nth in Hj by lia. cbn in Hj. injection Hj as <-.
      assert ((q + j) mod R g < R g) by (apply Nat.mod_upper_bound; lia).
      split; [|lia]. change (slot c' (q + j)) with (slot c3 (q + j)). apply B10; [lia|].
      unfold slot. rewrite I2. change (vat l (q + j) <> Valid). rewrite A5 by lia. discriminate.
    + split.
      * intros i Hi. rewrite (proj2 (Sl i)). destruct (Fr (nth i l zero_info)) as (x & Hx & ->); [apply nth_In; lia|].
        rewrite Ph by exact Hx. lia.
      * intros i j Hi Hj. rewrite (proj2 (Sl i)), (proj2 (Sl j)). apply Inj; assumption.
    + cbn. rewrite B5, F2. lia.
    + intros r Hr. split; [reflexivity|]. rewrite Hcr by lia. lia.
  - cbn [keys]. rewrite map_length, seq_length. intros H0 Hcase r Hr. unfold owed. cbn [credit debts].
      replace r with (N.of_nat (N.to_nat r)) at 2 by lia. rewrite falls_owed.
      rewrite Hcr by lia. rewrite H0. cbn [Nat.add].
      pose proof (falls_all (R g) (C g) (N.to_nat r) ltac:(lia)) as HA'.
      assert (Hmine : forall n, n <= q -> mine g (vat l) 0 n (N.to_nat r) = falls (R g) 0 n (N.to_nat r)).
      { intros n Hn. unfold mine, falls. f_equal. apply filter_ext_in. intros j Hj. apply in_seq in Hj.
        rewrite A4 by lia. reflexivity. }
      assert (Hmapp : forall a b, mine g (vat l) 0 (a + b) (N.to_nat r) =
        mine g (vat l) 0 a (N.to_nat r) + mine g (vat l) a b (N.to_nat r)).
      { intros a b. unfold mine. rewrite seq_app, filter_app, app_length. reflexivity. }
      destruct Hcase as [Hfull | [HE HS]].
      * assert (Hq' : q = R g * C g) by lia. rewrite Hq', Nat.sub_diag.
        replace (falls (R g) (R g * C g) 0 (N.to_nat r)) with 0 by reflexivity.
        unfold num_keys. rewrite Hmapp, Hmine, HA' by lia. lia.
      * rewrite (ErrW HE) in *.
        destruct (Nat.le_gt_cases (num_keys g - 1) low) as [Hlow|Hlow].
        -- assert (Hq' : q = R g * C g) by lia. rewrite Hq', Nat.sub_diag.
           replace (falls (R g) (R g * C g) 0 (N.to_nat r)) with 0 by reflexivity.
           unfold num_keys. rewrite Hmapp, Hmine, HA' by lia. lia.
        -- replace (num_keys g) with (q + (num_keys g - q)) by lia. rewrite Hmapp, Hmine by lia.
           assert (HZ : mine g (vat l) q (num_keys g - q) (N.to_nat r) = 0).
           { unfold mine. rewrite (filter_ext_in _ (fun _ => false)).
             - generalize (seq q (num_keys g - q)). intros l0. induction l0; auto.
             - intros j Hj. apply in_seq in Hj. rewrite A5 by lia. reflexivity. }
           rewrite HZ. replace (R g * C g) with (q + (R g * C g - q)) in HA' by lia.
           rewrite falls_app in HA'. cbn [Nat.add] in *. lia.
Qed.
