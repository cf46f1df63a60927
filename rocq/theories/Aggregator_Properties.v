(** C82: several flash stores used as one. *)
From Coq Require Import List ZArith Bool Arith Lia ZifyBool ZifyNat.
From Verif Require Import Aggregator_Model Aggregator_Spec.
Import ListNotations.
Local Open Scope Z_scope.

Section PROOFS.
Context {B R : Type}.
Implicit Types (s : store B) (l : list (store B)) (o : B -> R * B).

Lemma countable_num s : countable s -> num_blocks s = Z.of_nat (length (blocks s)) /\ is_error (num_blocks s) = false.
Proof. intros [H K]. unfold num_blocks, is_error. rewrite H. split; [reflexivity|]. lia. Qed.

Lemma all_blocks_cons s l : all_blocks (s :: l) = blocks s ++ all_blocks l.
Proof. reflexivity. Qed.

Lemma replace_app_left {A} (a b : list A) i x : (i < length a)%nat -> replace (a ++ b) i x = replace a i x ++ b.
Proof.
  revert i; induction a as [|y a IH]; intros [|i] H; cbn in *; try lia; [reflexivity|].
  rewrite IH by lia; reflexivity.
Qed.

Lemma replace_app_right {A} (a b : list A) i x : (length a <= i)%nat -> replace (a ++ b) i x = a ++ replace b (i - length a) x.
Proof.
  revert i; induction a as [|y a IH]; intros i H; cbn in *; [f_equal; lia|].
  destruct i as [|i]; [lia|]. cbn. rewrite IH by lia; reflexivity.
Qed.

Lemma replace_length {A} (a : list A) i x : length (replace a i x) = length a.
Proof. revert i; induction a as [|y a IH]; intros [|i]; cbn; congruence || reflexivity. Qed.

Lemma call_left o a b id : id < Z.of_nat (length a) ->
  call o (a ++ b) id = let '(r, a') := call o a id in (r, a' ++ b).
Proof.
  intros H. unfold call. destruct (id <? 0) eqn:E; [reflexivity|].
  rewrite nth_error_app1 by lia.
  destruct (nth_error a (Z.to_nat id)) as [x|] eqn:N; [|apply nth_error_None in N; lia].
  destruct (o x) as [r y]. rewrite replace_app_left by lia. reflexivity.
Qed.

Lemma call_right o a b id : Z.of_nat (length a) <= id ->
  call o (a ++ b) id = let '(r, b') := call o b (id - Z.of_nat (length a)) in (r, a ++ b').
Proof.
  intros H. unfold call. replace (id <? 0) with false by lia. replace (id - Z.of_nat (length a) <? 0) with false by lia.
  rewrite nth_error_app2 by lia. replace (Z.to_nat (id - Z.of_nat (length a))) with (Z.to_nat id - length a)%nat by lia.
  destruct (nth_error b _) as [x|]; [|reflexivity].
  destruct (o x) as [r y]. rewrite replace_app_right by lia. reflexivity.
Qed.

Lemma call_length o a id r a' : call o a id = (r, a') -> length a' = length a.
Proof.
  unfold call. destruct (id <? 0); [intros E; congruence|].
  destruct (nth_error a _) as [x|]; [|intros E; congruence]. destruct (o x) as [q y]. intros E.
  assert (a' = replace a (Z.to_nat id) y) by congruence. subst a'. apply replace_length.
Qed.

Lemma block_call_cons o s (l : list (option (store B))) id : is_error (num_blocks s) = false -> num_blocks s <= id -> int id -> 0 <= num_blocks s ->
  block_call o (Some s :: l) id = let '(r, l') := block_call o l (id - num_blocks s) in (r, Some s :: l').
Proof.
  intros E H K P. unfold block_call. cbn [find]. rewrite E. replace (id <? num_blocks s) with false by lia.
  assert (D : in_int (id - num_blocks s) = true) by (unfold in_int, INT_MAX, int in *; lia).
  rewrite D; cbn [negb].
  destruct (find l (id - num_blocks s)) as [[k i]|e]; [|reflexivity].
  cbn [nth_error]. destruct (nth_error l k) as [[t|]|]; try reflexivity.
  destruct (call o (blocks t) i) as [r b]. reflexivity.
Qed.

Definition shape s := (length (blocks s), count_fails s, max_length s, size s).

Lemma block_call_within o l rest id : Forall countable l -> l <> [] \/ 0 <= id -> int id ->
  id < Z.of_nat (length (all_blocks l)) ->
  exists l', block_call o (map Some l ++ rest) id = (fst (call o (all_blocks l) id), map Some l' ++ rest) /\
    all_blocks l' = snd (call o (all_blocks l) id) /\ map shape l' = map shape l.
Proof.
  revert id; induction l as [|s l IH]; intros id F Q K H.
  { cbn in H. destruct Q as [Q|Q]; [congruence|lia]. }
  inversion F as [|? ? C F']; subst. destruct (countable_num s C) as [N E].
  cbn [map app]. rewrite all_blocks_cons in *.
  destruct (Z_lt_le_dec id (num_blocks s)) as [L|L].
  - rewrite call_left by lia. unfold block_call; cbn [find]. rewrite E. replace (id <? num_blocks s) with true by lia.
    cbn [nth_error]. destruct (call o (blocks s) id) as [r b] eqn:G.
    exists (set_blocks s b :: l). cbn [fst snd map app replace]. split; [reflexivity|]. split; [reflexivity|].
    f_equal. unfold shape, set_blocks; cbn. rewrite (call_length _ _ _ _ _ G). reflexivity.
  - rewrite block_call_cons by (auto; lia). rewrite call_right by lia.
    rewrite app_length in H. destruct (IH (id - num_blocks s) F') as (l' & X & Y & Z).
    + right; lia.
    + unfold int in *; lia.
    + lia.
    + rewrite X. rewrite <- N. destruct (call o (all_blocks l) (id - num_blocks s)) as [r b]. cbn [fst snd] in *.
      exists (s :: l'). cbn [map app]. split; [reflexivity|]. split; [rewrite all_blocks_cons, Y; reflexivity|].
      f_equal. exact Z.
Qed.

(** Ids past the stores that can be counted. *)
Lemma block_call_past o l rest id : Forall countable l -> int id -> Z.of_nat (length (all_blocks l)) <= id ->
  block_call o (map Some l ++ rest) id =
  (let '(r, rest') := block_call o rest (id - Z.of_nat (length (all_blocks l))) in (r, map Some l ++ rest')).
Proof.
  revert id; induction l as [|s l IH]; intros id F K H.
  - cbn [map app all_blocks concat length] in *. change (length (all_blocks [])) with O. replace (id - Z.of_nat 0) with id by lia.
    destruct (block_call o rest id); reflexivity.
  - inversion F as [|? ? C F']; subst. destruct (countable_num s C) as [N E].
    rewrite all_blocks_cons in *. rewrite app_length in *. cbn [map app].
    rewrite block_call_cons by (auto; lia). rewrite IH by (auto; unfold int in *; lia).
    replace (id - num_blocks s - Z.of_nat (length (all_blocks l)))
      with (id - Z.of_nat (length (blocks s) + length (all_blocks l))) by lia.
    destruct (block_call o rest _); reflexivity.
Qed.
End PROOFS.

(** If all stores are there and can be counted, a call on a block of the
    aggregate is that call on the block of one store that has all the blocks in
    order: it returns the same and changes the same block; an id that is not
    from 0 to the number of blocks is refused, and changes nothing.  The stores
    keep the number of their blocks. *)
Theorem C82_one_store : forall B R (o : B -> R * B) (l : list (store B)) id,
  l <> [] -> Forall countable l -> int id ->
  exists l', block_call o (map Some l) id = (fst (call o (all_blocks l) id), map Some l') /\
    all_blocks l' = snd (call o (all_blocks l) id) /\
    map (fun s => length (blocks s)) l' = map (fun s => length (blocks s)) l /\
    (fst (call o (all_blocks l) id) = inr UnsupportedId <-> ~ 0 <= id < Z.of_nat (length (all_blocks l))).
Proof.
  intros B R o l id Q F K.
  assert (U : fst (call o (all_blocks l) id) = inr UnsupportedId <-> ~ 0 <= id < Z.of_nat (length (all_blocks l))).
  { unfold call. destruct (id <? 0) eqn:E; [cbn; split; [lia|reflexivity]|].
    destruct (nth_error (all_blocks l) (Z.to_nat id)) as [x|] eqn:N.
    - assert (Z.to_nat id < length (all_blocks l))%nat by (apply nth_error_Some; congruence).
      destruct (o x) as [r y]; cbn. split; [discriminate|lia].
    - apply nth_error_None in N. cbn. split; [lia|reflexivity]. }
  destruct (Z_lt_le_dec id (Z.of_nat (length (all_blocks l)))) as [L|L].
  - destruct (block_call_within o l [] id F (or_introl Q) K L) as (l' & X & Y & Z). rewrite !app_nil_r in X.
    exists l'. split; [exact X|]. split; [exact Y|]. split; [|exact U].
    apply (f_equal (map (fun p => fst (fst (fst p))))) in Z. rewrite !map_map in Z. exact Z.
  - pose proof (block_call_past o l [] id F K L) as X. rewrite !app_nil_r in X. rewrite X.
    cbn [block_call find]. exists l. rewrite app_nil_r.
    unfold call in *. replace (id <? 0) with false in * by lia.
    assert (N : nth_error (all_blocks l) (Z.to_nat id) = None) by (apply nth_error_None; lia).
    rewrite N in *. cbn. repeat split; auto; lia.
Qed.
Print Assumptions C82_one_store.

(** If a store is missing or cannot be counted, the blocks of the stores before
    it still work as one store, and any other call returns an error and changes
    nothing.  That nothing is undefined: the arithmetic on ids stays in int. *)
Theorem C82_broken : forall B R (o : B -> R * B) (l : list (store B)) b rest id,
  Forall countable l -> broken b -> int id ->
  (0 <= id < Z.of_nat (length (all_blocks l)) ->
     exists l', block_call o (map Some l ++ b :: rest) id = (fst (call o (all_blocks l) id), map Some l' ++ b :: rest) /\
       all_blocks l' = snd (call o (all_blocks l) id)) /\
  (Z.of_nat (length (all_blocks l)) <= id ->
     exists e, block_call o (map Some l ++ b :: rest) id = (inr e, map Some l ++ b :: rest) /\
       match b with None => e = NoStorage | Some s => e = Failed (num_blocks s) end).
Proof.
  intros B R o l b rest id F W K. split; intros H.
  - destruct (block_call_within o l (b :: rest) id F (or_intror (proj1 H)) K (proj2 H)) as (l' & X & Y & Z).
    exists l'. split; assumption.
  - rewrite block_call_past by auto. destruct b as [s|].
    + destruct W as (e & W & E). unfold block_call; cbn [find].
      assert (N : num_blocks s = e) by (unfold num_blocks; rewrite W; reflexivity).
      rewrite N, E. eexists; split; reflexivity.
    + eexists; split; reflexivity.
Qed.
Print Assumptions C82_broken.

(** The number of blocks the aggregate reports is that of all the blocks. *)
Theorem C82_count : forall B (l : list (store B)),
  Forall countable l -> Z.of_nat (length (all_blocks l)) <= 0x7fffffff ->
  get_num_blocks (map Some l) = inl (Z.of_nat (length (all_blocks l))).
Proof.
  intros B l. unfold get_num_blocks.
  enough (G : forall n, 0 <= n -> Forall countable l -> n + Z.of_nat (length (all_blocks l)) <= 0x7fffffff ->
    count_from n (map Some l) = inl (n + Z.of_nat (length (all_blocks l)))) by (intros F H; apply (G 0); auto; lia).
  induction l as [|s l IH]; intros n P F H.
  - cbn [map count_from]. f_equal. cbn; lia.
  - inversion F as [|? ? C F']; subst. destruct (countable_num s C) as [N E].
    rewrite all_blocks_cons, app_length in *. cbn [map count_from]. rewrite E.
    assert (D : in_int (n + num_blocks s) = true) by (unfold in_int, INT_MAX in *; lia).
    rewrite D; cbn [negb]. rewrite IH by (auto; lia). f_equal. lia.
Qed.
Print Assumptions C82_count.

(** erase_all: the stores are erased in order up to the first that fails, whose
    error is returned; those after it are as they were.  Success is reported only if
    all of them were erased. *)
Theorem C82_erase_all : forall B (clear : nat -> list B -> Z * list B) (l : list (store B)),
  (forall k b, fst (clear k b) = 0 \/ is_error (fst (clear k b)) = true) ->
  let after := fun k s => set_blocks s (snd (clear k (blocks s))) in
  let status := fun k => match nth_error l k with Some s => fst (clear k (blocks s)) | None => 0 end in
  exists r l', erase_all clear (map Some l) = (inl r, map Some l') /\ length l' = length l /\
    ((r = 0 /\ forall k s, nth_error l k = Some s -> status k = 0 /\ nth_error l' k = Some (after k s)) \/
     (is_error r = true /\ exists n, (n < length l)%nat /\ status n = r /\
        (forall k, (k < n)%nat -> status k = 0) /\
        (forall k s, nth_error l k = Some s -> nth_error l' k = Some (if (k <=? n)%nat then after k s else s)))).
Proof.
  intros B clear l W after status. unfold erase_all, status, after. clear after status.
  enough (G : forall i, exists r l', erase_from clear i 0 (map Some l) = (inl r, map Some l') /\ length l' = length l /\
    ((r = 0 /\ forall k s, nth_error l k = Some s -> fst (clear (i + k)%nat (blocks s)) = 0 /\
        nth_error l' k = Some (set_blocks s (snd (clear (i + k)%nat (blocks s))))) \/
     (is_error r = true /\ exists n, (n < length l)%nat /\
        match nth_error l n with Some s => fst (clear (i + n)%nat (blocks s)) | None => 0 end = r /\
        (forall k, (k < n)%nat -> match nth_error l k with Some s => fst (clear (i + k)%nat (blocks s)) | None => 0 end = 0) /\
        (forall k s, nth_error l k = Some s -> nth_error l' k =
           Some (if (k <=? n)%nat then set_blocks s (snd (clear (i + k)%nat (blocks s))) else s))))).
  { destruct (G O) as (r & l' & X & Y & Z). exists r, l'. split; [exact X|]. split; [exact Y|].
    destruct Z as [[Z1 Z2]|Z]; [left; split; [exact Z1|]|right; exact Z].
    intros k s N. rewrite N. apply (Z2 k s N). }
  induction l as [|s l IH]; intros i.
  - exists 0, []. split; [reflexivity|]. split; [reflexivity|]. left; split; [reflexivity|].
    intros [|k] s N; discriminate.
  - cbn [map erase_from]. destruct (clear i (blocks s)) as [st b] eqn:C.
    pose proof (W i (blocks s)) as V. rewrite C in V. cbn [fst] in V.
    destruct (is_error st) eqn:E.
    + exists st, (set_blocks s b :: l). split; [reflexivity|]. split; [reflexivity|]. right; split; [exact E|].
      exists O. split; [cbn; lia|]. cbn [nth_error]. rewrite Nat.add_0_r, C. split; [reflexivity|].
      split; [intros k Hk; lia|]. intros [|k] t N; cbn in N |- *.
      * injection N as <-. rewrite Nat.add_0_r, C. reflexivity.
      * exact N.
    + destruct V as [V|V]; [subst st|discriminate].
      destruct (IH (Datatypes.S i)) as (r & l' & X & Y & Z). rewrite X.
      exists r, (set_blocks s b :: l'). split; [reflexivity|]. split; [cbn; lia|].
      destruct Z as [[Z1 Z2]|(Z1 & n & Zn & Zs & Zb & Za)]; [left; split; [exact Z1|]|right; split; [exact Z1|]].
      * intros [|k] t N; cbn in N |- *.
        -- injection N as <-. rewrite Nat.add_0_r, C. split; reflexivity.
        -- rewrite <- plus_n_Sm. apply (Z2 k t N).
      * exists (Datatypes.S n). split; [cbn; lia|]. split; [cbn [nth_error]; rewrite <- plus_n_Sm; exact Zs|].
        split.
        -- intros [|k] Hk; cbn [nth_error]; [rewrite Nat.add_0_r, C; reflexivity|].
           rewrite <- plus_n_Sm. apply (Zb k). lia.
        -- intros [|k] t N; cbn in N |- *.
           ++ injection N as <-. rewrite Nat.add_0_r, C. reflexivity.
           ++ rewrite <- plus_n_Sm. apply (Za k t N).
Qed.
Print Assumptions C82_erase_all.

(** The maximum length: data up to it fits in a block of any store, and it is
    that of one of them.  An error of a store is returned. *)
Theorem C82_max_length : forall B (l : list (store B)) m,
  l <> [] -> (forall s, In s l -> int (max_length s)) -> get_max_data_length (map Some l) = inl m ->
  (is_error m = false ->
     (forall s, In s l -> is_error (max_length s) = false /\ m <= max_length s) /\ exists s, In s l /\ m = max_length s) /\
  (is_error m = true -> exists s, In s l /\ m = max_length s).
Proof.
  intros B l m Q. unfold get_max_data_length.
  enough (G : forall n, 0 <= n -> (forall s, In s l -> int (max_length s)) -> max_from n (map Some l) = inl m ->
    (is_error m = true /\ (exists s, In s l /\ m = max_length s) \/ 
     (forall s, In s l -> is_error (max_length s) = false /\ m <= max_length s) /\ m <= n /\
       (m = n \/ exists s, In s l /\ m = max_length s))).
  { intros K H. specialize (G INT_MAX ltac:(discriminate) K H). destruct G as [[E G]|(A & D & G)].
    - split; [congruence|]. intros _; exact G.
    - assert (X : exists s, In s l /\ m = max_length s).
      { destruct G as [G|G]; [|exact G]. destruct l as [|s l]; [congruence|].
        destruct (A s) as [A1 A2]; [left; reflexivity|]. pose proof (K s (or_introl eq_refl)) as K1.
        exists s. split; [left; reflexivity|]. unfold int, INT_MAX in *; lia. }
      split; [intros _; split; assumption|intros _; exact X]. }
  clear Q. induction l as [|s l IH]; intros n P K H.
  - cbn in H. assert (n = m) by congruence. subst n. right. split; [intros s []|]. split; [lia|left; reflexivity].
  - cbn [map max_from] in H. destruct (is_error (max_length s)) eqn:E.
    + assert (max_length s = m) by congruence. left. split; [congruence|]. exists s; split; [left; reflexivity|congruence].
    + destruct (IH (Z.min n (max_length s))) as [[V (t & T & Tm)]|(A & D & G)]; auto.
      * unfold is_error in E. lia.
      * intros t T; apply K; right; exact T.
      * left. split; [exact V|]. exists t; split; [right; exact T|exact Tm].
      * right. split; [intros t [<-|T]; [split; [exact E|lia]|apply A; exact T]|]. split; [lia|].
        destruct G as [G|(t & T & Tm)]; [|right; exists t; split; [right; exact T|exact Tm]].
        destruct (Z_le_gt_dec n (max_length s)); [left; lia|right; exists s; split; [left; reflexivity|lia]].
Qed.
Print Assumptions C82_max_length.

(** The size is the sum of the sizes, as long as that is not so large that it
    looks like an error. *)
Theorem C82_flash_size : forall B (l : list (store B)),
  (forall s, In s l -> 0 <= size s) -> sum (map size l) < 0x7f000000 ->
  get_flash_size (map Some l) = inl (sum (map size l)).
Proof.
  intros B l. unfold get_flash_size.
  enough (G : forall n, 0 <= n -> (forall s, In s l -> 0 <= size s) -> n + sum (map size l) < 0x7f000000 ->
    size_from n (map Some l) = inl (n + sum (map size l)) /\ 0 <= sum (map size l))
    by (intros P H; apply (G 0); auto; lia).
  induction l as [|s l IH]; intros n P K H.
  - cbn in *. split; [|lia]. f_equal. unfold to_int. rewrite Z.mod_small by lia. unfold INT_MAX.
    replace (n <=? 0x7fffffff) with true by lia. lia.
  - cbn [map sum fold_right] in *. fold (sum (map size l)) in *. cbn [size_from].
    pose proof (K s (or_introl eq_refl)) as S0.
    assert (Q : 0 <= sum (map size l)).
    { clear -K. assert (X : forall t, In t l -> 0 <= size t) by (intros; apply K; right; assumption).
      clear K. induction l as [|t l IH]; cbn; [lia|]. pose proof (X t (or_introl eq_refl)).
      assert (0 <= sum (map size l)) by (apply IH; intros; apply X; right; assumption). unfold sum in *. lia. }
    assert (E : is_error (size s) = false) by (unfold is_error; lia). rewrite E.
    rewrite Z.mod_small by lia. destruct (IH (n + size s)) as [X _]; [lia|intros; apply K; right; assumption|lia|].
    rewrite X. split; [f_equal; lia|lia].
Qed.
Print Assumptions C82_flash_size.

(** An entry that is NULL is reported as missing storage by calls on blocks, but
    erase_all and the queries use it: whatever the stores before it are, unless one
    of them fails. *)
Theorem C82_missing_store_refuted : forall B (l : list (store B)) rest,
  Forall countable l -> Z.of_nat (length (all_blocks l)) <= 0x7fffffff ->
  fst (erase_all (fun _ _ => (0, [])) (map Some l ++ None :: rest)) = inr Undefined /\
  get_num_blocks (map Some l ++ None :: rest) = inr Undefined.
Proof.
  intros B l rest F H. split.
  - unfold erase_all. clear F H. generalize O. induction l as [|s l IH]; intros n; [reflexivity|].
    cbn [map app erase_from]. change (is_error 0) with false. cbn iota.
    specialize (IH (Datatypes.S n)). destruct (erase_from _ _ _ _); exact IH.
  - unfold get_num_blocks. assert (P : 0 <= 0) by lia. revert P. 
    assert (H' : 0 + Z.of_nat (length (all_blocks l)) <= 0x7fffffff) by lia. clear H. revert H'.
    generalize 0 at 1 3 4. revert F. induction l as [|s l IH]; intros F n H P; [reflexivity|].
    inversion F as [|? ? C F']; subst. destruct (countable_num s C) as [N E].
    rewrite all_blocks_cons, app_length in *. cbn [map app count_from]. rewrite E.
    assert (D : in_int (n + num_blocks s) = true) by (unfold in_int, INT_MAX in *; lia).
    rewrite D; cbn [negb]. apply IH; auto; lia.
Qed.
Print Assumptions C82_missing_store_refuted.

(** The size is summed without a check: four stores of 1 GB report that they use
    no flash. *)
Theorem C82_flash_size_refuted :
  get_flash_size (repeat (Some (Store [tt] None 1 0x40000000)) 4) = inl 0.
Proof. reflexivity. Qed.
Print Assumptions C82_flash_size_refuted.

(** Two stores of two and three blocks: block 3 is the second of the second. *)
Definition write_block (d : list Z) : list Z -> Z * list Z := fun _ => (0, d).
Example two_stores :
  let a := Store [[1]; [2]] None 100 4096 in let b := Store [[3]; [4]; [5]] None 80 8192 in
  block_call (write_block [9]) [Some a; Some b] 3 = (inl 0, [Some a; Some (Store [[3]; [9]; [5]] None 80 8192)]) /\
  block_call (write_block [9]) [Some a; Some b] 5 = (inr UnsupportedId, [Some a; Some b]) /\
  block_call (write_block [9]) [Some a; Some b] (-1) = (inr UnsupportedId, [Some a; Some b]) /\
  block_call (write_block [9]) [Some a; None; Some b] 3 = (inr NoStorage, [Some a; None; Some b]) /\
  get_num_blocks [Some a; Some b] = inl 5 /\ get_max_data_length [Some a; Some b] = inl 80 /\
  get_flash_size [Some a; Some b] = inl 12288 /\ Forall countable [a; b] /\ int 3.
Proof. repeat split; try reflexivity; try lia. repeat constructor. Qed.
