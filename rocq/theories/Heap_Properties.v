(** Properties C23 and C24: the heap. *)
From Coq Require Import List NArith Bool Arith Lia Permutation Sorted.
From Coq Require Import ZifyBool ZifyNat ZifyN.
From Verif Require Import Base Heap_Model Heap_Spec Heap_Links_Proofs Heap_Proofs Heap_Inv_Proofs Heap_Free_Proofs Heap_Client_Proofs.
Import ListNotations.
Local Open Scope N_scope.

(** Every block a client holds lies inside the heap, after a control block of its own, is as large as was
    asked for, and shares no byte (nor any byte of its control block) with any other block held. *)
Theorem C23_blocks : forall W HL base len h0 s,
  0 < HL -> 0 < base -> reached W HL base len h0 s ->
  NoDup (map fst (live s)) /\
  (forall a n, In (a, n) (live s) -> base + HL <= a /\ a + n <= base + len /\ n <= sz (hm (hp s)) (a - HL)) /\
  (forall a n b k, In (a, n) (live s) -> In (b, k) (live s) -> a <> b ->
     apart (a - HL) (HL + n) (b - HL) (HL + k)).
Proof.
  intros W HL base len h0 s H1 H2 R. destruct (reached_good W HL base len H1 H2 h0 s R) as (l & A & I & Hh).
  split; [apply Hh|]. split.
  - intros a n Hi. destruct (h_live _ _ _ Hh _ _ Hi) as (b & Hb & Fb & -> & Hn).
    destruct (tiles_in HL H1 _ _ _ _ (i_tiles _ _ _ _ _ _ I) Hb). destruct (i_ctrl _ _ _ _ _ _ I b Hb) as [_ E].
    replace (ba b + HL - HL) with (ba b) by lia. rewrite E. lia.
  - intros a n b k Ha Hb Hn. destruct (h_live _ _ _ Hh _ _ Ha) as (c & Hc & _ & -> & Hcn). destruct (h_live _ _ _ Hh _ _ Hb) as (d & Hd & _ & -> & Hdn).
    assert (E : ba c <> ba d) by lia. pose proof (tiles_apart HL H1 _ _ _ _ _ (i_tiles _ _ _ _ _ _ I) Hc Hd E) as P. unfold apart in *. lia.
Qed.
Print Assumptions C23_blocks.

(** Every allowed call returns. *)
Theorem C23_calls_return : forall W HL base len h0 s,
  0 < HL -> 0 < base -> reached W HL base len h0 s ->
  (forall n, in_range W HL n -> exists s', step W HL len s (Malloc n) s') /\
  (forall k n, in_range W HL (k * n) -> exists s', step W HL len s (Calloc k n) s') /\
  (forall a k n, In (a, k) (live s) -> in_range W HL n -> exists s', step W HL len s (Realloc a n) s') /\
  (forall a k, In (a, k) (live s) -> exists s', step W HL len s (Free a) s').
Proof.
  intros W HL base len h0 [h lv] H1 H2 R. destruct (reached_good W HL base len H1 H2 h0 _ R) as (l & A & I & Hh). cbn [hp live] in *.
  assert (AL : forall n, in_range W HL n -> exists h' a, allocate W HL (fuel_of len) h n = Some (h', a)).
  { intros n Hn. destruct (allocate_client W HL base len H1 H2 h l A lv n I Hh Hn) as [(E & _)|(h' & l' & r & E & _)]; eauto. }
  split; [|split; [|split]].
  - intros n Hn. destruct (AL n Hn) as (h' & a & E). eexists. econstructor; eauto.
  - intros k n Hn. destruct (AL _ Hn) as (h' & a & E). destruct (allocate_zeroize W HL (fuel_of len) h k n) as [[h2 a2]|] eqn:EZ.
    + eexists. econstructor; eauto.
    + exfalso. unfold allocate_zeroize in EZ. cbv zeta in EZ. rewrite (N.mod_small (k * n)) in EZ by (unfold in_range in Hn; lia).
      rewrite E in EZ. destruct (a =? 0); discriminate.
  - intros a k n Ha Hn. destruct (realloc_client W HL base len H1 H2 h l A lv a k n I Hh Hn Ha) as [(E & _)|[(E & _)|(h' & a' & l1 & l2 & A2 & E & _)]];
      eexists; econstructor; eauto.
  - intros a k Ha. destruct (free_client HL base len H1 H2 h l A lv a k I Hh Ha) as (h' & l' & A' & E & _). eexists. econstructor; eauto.
Qed.
Print Assumptions C23_calls_return.

(** The two lists of the heap: the free list is in address order without two adjacent blocks, the
    allocated list holds exactly the blocks held by the client, and together they account for every byte;
    this is also what heap_with_defrag_get_stats reports. *)
Theorem C23_accounting : forall W HL base len h0 s,
  0 < HL -> 0 < base -> reached W HL base len h0 s ->
  let m := hm (hp s) in
  exists F A, chain m (fl (hp s)) F /\ chain m (al (hp s)) A /\
    Permutation A (map (fun b => fst b - HL) (live s)) /\
    StronglySorted N.lt F /\ (forall f g, In f F -> In g F -> f + HL + sz m f <> g) /\
    total (fun x => sz m x + HL) F + total (fun x => sz m x + HL) A = len /\
    tally HL (fuel_of len) m (al (hp s)) = Some (N.of_nat (length (live s)), total (sz m) A, total (fun x => sz m x + HL) A) /\
    tally HL (fuel_of len) m (fl (hp s)) = Some (N.of_nat (length F), total (sz m) F, len - total (fun x => sz m x + HL) A).
Proof.
  intros W HL base len h0 s H1 H2 R m. destruct (reached_good W HL base len H1 H2 h0 s R) as (l & A & I & Hh).
  destruct (inv_nodup HL base len H1 H2 _ _ _ I) as (N1 & N2 & N3 & N4 & Z1 & Z2 & Z3).
  exists (frees l), A. 
  assert (C1 : chain m (fl (hp s)) (frees l)) by (rewrite (i_fl _ _ _ _ _ _ I); apply (seg_chain m _ 0); auto; apply I).
  assert (C2 : chain m (al (hp s)) A) by (rewrite (i_al _ _ _ _ _ _ I); apply (seg_chain m _ 0); auto; apply I).
  assert (PA : Permutation A (map (fun b => fst b - HL) (live s))).
  { apply NoDup_Permutation; auto.
    - assert (inj : forall lv, NoDup (map fst lv) -> (forall a (n : N), In (a, n) lv -> HL <= a) -> NoDup (map (fun b : N * N => fst b - HL) lv)).
      { clear. induction lv as [|[a n] lv IH]; intros ND Hl; [constructor|]. cbn [map fst] in *. apply NoDup_cons_iff in ND. destruct ND as [ND1 ND2].
        constructor; [|apply IH; auto; intros; eapply Hl; right; eauto]. rewrite in_map_iff in *. intros ([b k] & E & Hi). cbn [fst] in E. apply ND1. exists (b, k).
        split; [|exact Hi]. cbn [fst]. pose proof (Hl a n (or_introl eq_refl)). pose proof (Hl b k (or_intror Hi)). lia. }
      apply inj; [apply Hh|]. intros a n Hi. destruct (h_live _ _ _ Hh _ _ Hi) as (b & _ & _ & -> & _). lia.
    - intros x. rewrite in_map_iff. split.
      + intros Hx. apply (Permutation_in _ (i_used _ _ _ _ _ _ I)), used_in in Hx. destruct Hx as (b & Hb & <- & Fb).
        destruct (h_used _ _ _ Hh b Hb Fb) as (n & Hn). exists (ba b + HL, n). split; [cbn [fst]; lia|exact Hn].
      + intros ([a n] & E & Hi). destruct (h_live _ _ _ Hh _ _ Hi) as (b & Hb & Fb & -> & _). cbn [fst] in E.
        apply (Permutation_in _ (Permutation_sym (i_used _ _ _ _ _ _ I))), used_in. exists b. repeat split; auto. lia. }
  assert (TT : total (fun x => sz m x + HL) (frees l) + total (fun x => sz m x + HL) A = len).
  { rewrite (total_perm HL base len H1 H2 _ _ _ (i_used _ _ _ _ _ _ I)). pose proof (total_tiles HL base H1 H2 m l base (base + len) (i_tiles _ _ _ _ _ _ I) (fun b Hb => proj2 (i_ctrl _ _ _ _ _ _ I b Hb))). lia. }
  assert (LA : length A = length (live s)) by (apply Permutation_length in PA; now rewrite map_length in PA).
  assert (LL : (length (frees l) < fuel_of len)%nat /\ (length A < fuel_of len)%nat).
  { pose proof (inv_length HL base len H1 H2 _ _ _ I). rewrite (Permutation_length (i_used _ _ _ _ _ _ I)). unfold frees, used. rewrite !map_length.
    pose proof (filter_length_le bf l). pose proof (filter_length_le (fun b => negb (bf b)) l). lia. }
  repeat split; auto.
  - apply (frees_sorted HL base H1 H2 l _ _ (i_tiles _ _ _ _ _ _ I)).
  - intros f g Hf Hg. apply frees_in in Hf. apply frees_in in Hg. destruct Hf as (b & Hb & <- & Fb), Hg as (c & Hc & <- & Fc).
    unfold m. rewrite (proj2 (i_ctrl _ _ _ _ _ _ I b Hb)). apply (sparse_not_adjacent HL base H1 H2 l _ _ b c (i_tiles _ _ _ _ _ _ I)); auto. apply I.
  - rewrite <- LA. apply (tally_spec HL base H1 H2); tauto.
  - replace (len - total (fun x => sz m x + HL) A) with (total (fun x => sz m x + HL) (frees l)) by lia. apply (tally_spec HL base H1 H2); tauto.
Qed.
Print Assumptions C23_accounting.

(** Once everything has been freed the heap is one free block again. *)
Theorem C23_all_freed : forall W HL base len h0 s,
  0 < HL -> 0 < base -> HL < len -> reached W HL base len h0 s -> live s = [] ->
  fl (hp s) = base /\ nx (hm (hp s)) base = 0 /\ sz (hm (hp s)) base = len - HL /\ al (hp s) = 0.
Proof.
  intros W HL base len h0 s H1 H2 H3 R El. destruct (reached_good W HL base len H1 H2 h0 s R) as (l & A & I & Hh).
  assert (U : used l = []).
  { destruct (used l) as [|x u] eqn:E; [reflexivity|]. exfalso. assert (In x (used l)) as Hx by (rewrite E; now left).
    apply used_in in Hx. destruct Hx as (b & Hb & _ & Fb). destruct (h_used _ _ _ Hh b Hb Fb) as (n & Hn). rewrite El in Hn. exact Hn. }
  destruct (sparse_single HL l base (base + len) (i_tiles _ _ _ _ _ _ I) (i_sparse _ _ _ _ _ _ I) U) as [->|(s0 & ->)].
  - pose proof (i_tiles _ _ _ _ _ _ I) as T. cbn [tiles] in T. lia.
  - pose proof (i_tiles _ _ _ _ _ _ I) as T. cbn [tiles ba bs] in T. destruct (i_ctrl _ _ _ _ _ _ I _ (or_introl eq_refl)) as [_ E]. cbn [ba bs] in E.
    pose proof (i_free _ _ _ _ _ _ I) as S. cbn in S. pose proof (i_used _ _ _ _ _ _ I) as P. rewrite U in P. apply Permutation_sym, Permutation_nil in P. subst A.
    rewrite (i_fl _ _ _ _ _ _ I), (i_al _ _ _ _ _ _ I), E. cbn. repeat split; try tauto. lia.
Qed.
Print Assumptions C23_all_freed.

(** A request is refused only if no free block fits: none has exactly the rounded size and none is large
    enough to be split.  A refused request changes nothing. *)
Theorem C23_refused_only_if_nothing_fits : forall W HL base len h0 s n h' F,
  0 < HL -> 0 < base -> reached W HL base len h0 s -> in_range W HL n ->
  allocate W HL (fuel_of len) (hp s) n = Some (h', 0) -> chain (hm (hp s)) (fl (hp s)) F ->
  h' = hp s /\
  exists size, n <= size < n + 4 /\ size mod 4 = 0 /\
    forall f, In f F -> sz (hm (hp s)) f <> size /\ sz (hm (hp s)) f < size + HL.
Proof.
  intros W HL base len h0 s n h' F H1 H2 R Hn E HC. destruct (reached_good W HL base len H1 H2 h0 s R) as (l & A & I & Hh).
  destruct (inv_nodup HL base len H1 H2 _ _ _ I) as (N1 & N2 & N3 & N4 & Z1 & Z2 & Z3).
  destruct (allocate_client W HL base len H1 H2 _ l A _ n I Hh Hn) as [(E' & U)|(h2 & l' & r & E' & P & _)]; rewrite E' in E.
  - split; [congruence|]. exists (round4 W n). destruct (round4_spec W HL base H1 H2 n Hn) as (Q1 & _ & Q2). split; [exact Q1|]. split; [exact Q2|].
    assert (C1 : chain (hm (hp s)) (fl (hp s)) (frees l)) by (rewrite (i_fl _ _ _ _ _ _ I); apply (seg_chain _ _ 0); auto; apply I).
    rewrite (chain_unique _ _ _ _ HC C1). intros f Hf. apply frees_in in Hf. destruct Hf as (b & Hb & <- & Fb).
    rewrite (proj2 (i_ctrl _ _ _ _ _ _ I b Hb)). now apply U.
  - injection E as _ E. lia.
Qed.
Print Assumptions C23_refused_only_if_nothing_fits.

(** A call changes nothing in any block that stays in the client's hands: neither its bytes, nor any
    control block that shares a byte with it. *)
Theorem C23_other_blocks_untouched : forall W HL base len h0 s c s' a n,
  0 < HL -> 0 < base -> reached W HL base len h0 s -> step W HL len s c s' -> c <> Write ->
  In (a, n) (live s) -> In (a, n) (live s') ->
  (forall y, a <= y < a + n -> bytes (hp s') y = bytes (hp s) y) /\
  (forall x, apart x HL a n \/
     (mg (hm (hp s')) x = mg (hm (hp s)) x /\ sz (hm (hp s')) x = sz (hm (hp s)) x /\
      nx (hm (hp s')) x = nx (hm (hp s)) x /\ pv (hm (hp s')) x = pv (hm (hp s)) x)).
Proof.
  intros W HL base len h0 s c s' a n H1 H2 R Hs Hc Ha Ha'. pose proof (reached_good W HL base len H1 H2 h0 s R) as G.
  destruct (step_good W HL base len H1 H2 s c s' G Hs) as [_ Q]. destruct (Q Hc a n Ha Ha') as [Q1 Q2]. split; [exact Q1|].
  intros x. destruct (same_at_dec (hm (hp s)) (hm (hp s')) x) as [D|D]; [right; exact D|left; auto].
Qed.
Print Assumptions C23_other_blocks_untouched.

(** Zeroed allocations are zero, and reallocation keeps the contents. *)
Theorem C23_contents : forall W HL base len h0 s,
  0 < HL -> 0 < base -> reached W HL base len h0 s ->
  (forall k n h' a, in_range W HL (k * n) -> allocate_zeroize W HL (fuel_of len) (hp s) k n = Some (h', a) -> a <> 0 ->
     forall i, i < k * n -> bytes h' (a + i) = 0) /\
  (forall o k n h' a, in_range W HL n -> In (o, k) (live s) -> reallocate W HL (fuel_of len) (hp s) o n = Some (h', a) ->
     (a = 0 /\ h' = hp s) \/ (forall i, i < n -> i < k -> bytes h' (a + i) = bytes (hp s) (o + i))).
Proof.
  intros W HL base len h0 [h lv] H1 H2 R. destruct (reached_good W HL base len H1 H2 h0 _ R) as (l & A & I & Hh). cbn [hp live] in *. split.
  - intros k n h' a Hn E Ha i Hi. unfold allocate_zeroize in E. cbv zeta in E. rewrite (N.mod_small (k * n)) in E by (unfold in_range in Hn; lia).
    destruct (allocate W HL (fuel_of len) h (k * n)) as [[h1 a1]|]; [|discriminate]. destruct (a1 =? 0); [congruence|].
    assert (a1 = a) by congruence. assert (Eh : h' = Heap (hm h1) (fill (bytes h1) a1 (k * n) 0) (fl h1) (al h1)) by congruence. subst h' a1.
    cbn [bytes]. unfold fill. rewrite (proj2 (N.leb_le _ _)), (proj2 (N.ltb_lt _ _)) by lia. reflexivity.
  - intros o k n h' a Hn Ho E. destruct (realloc_client W HL base len H1 H2 h l A lv o k n I Hh Hn Ho) as [(E' & _)|[(E' & _)|(h1 & a1 & l1 & l2 & A2 & E' & _ & _ & _ & _ & _ & B & _)]]; rewrite E' in E.
    + right. assert (h' = h) by congruence. assert (a = o) by congruence. subst. auto.
    + left. split; congruence.
    + right. assert (h' = h1) by congruence. assert (a = a1) by congruence. subst. exact B.
Qed.
Print Assumptions C23_contents.

(** A 32-bit heap of 256 bytes on which three blocks were allocated and the middle one freed. *)
Definition ex_mem : heap := Heap (Mem (fun _ => 0) (fun _ => 0) (fun _ => 0) (fun _ => 0)) (fun _ => 0) 0 0.
Definition ex_W : N := 2 ^ 32.

Example C23_reached_ex : exists s, reached ex_W 16 4096 256 ex_mem s /\ map fst (live s) = [4212; 4336] /\ map snd (live s) = [40; 13].
Proof.
  assert (E0 : exists h, heap_init 16 ex_mem 4096 256 = Some h /\ fl h = 4096 /\ al h = 0 /\ sz (hm h) 4096 = 240 /\ nx (hm h) 4096 = 0)
    by (eexists; split; [reflexivity|]; repeat split).
  destruct E0 as (h & E0 & _). pose proof (RStart ex_W 16 4096 256 ex_mem h E0) as R0.
  eexists. split.
  - eapply RStep; [eapply RStep; [eapply RStep; [eapply RStep; [exact R0|]|]|]|].
    + apply (SMalloc _ _ _ _ _ 13). reflexivity. injection E0 as <-. vm_compute. reflexivity.
    + apply (SMalloc _ _ _ _ _ 50). reflexivity. vm_compute. reflexivity.
    + apply (SMalloc _ _ _ _ _ 40). reflexivity. vm_compute. reflexivity.
    + eapply (SFree _ _ _ _ _ 4268). right. left. reflexivity. vm_compute. reflexivity.
  - vm_compute. split; reflexivity.
Qed.

(** A request that stays clear of the integer limit is refused or served with a block at least that large
    that lies inside the heap, in every state a client can reach. *)
Theorem C24_in_range : forall W HL base len h0 s n h' a,
  0 < HL -> 0 < base -> reached W HL base len h0 s -> in_range W HL n ->
  allocate W HL (fuel_of len) (hp s) n = Some (h', a) ->
  a = 0 \/ (n <= sz (hm h') (a - HL) /\ base + HL <= a /\ a + sz (hm h') (a - HL) <= base + len).
Proof.
  intros W HL base len h0 s n h' a H1 H2 R Hn E. destruct (reached_good W HL base len H1 H2 h0 s R) as (l & A & I & Hh).
  destruct (allocate_client W HL base len H1 H2 _ l A _ n I Hh Hn) as [(E' & U)|(h2 & l' & r & E' & P & _ & I' & Hin & _)]; rewrite E' in E.
  - left. congruence.
  - right. assert (a = r + HL) by congruence. assert (h' = h2) by congruence. subst a h'.
    destruct (tiles_in HL H1 _ _ _ _ (i_tiles _ _ _ _ _ _ I') Hin). destruct (i_ctrl _ _ _ _ _ _ I' _ Hin) as [_ Es]. cbn [ba bs] in *.
    replace (r + HL - HL) with r by lia. rewrite Es. destruct (round4_spec W HL base H1 H2 n Hn) as (Q & _). lia.
Qed.
Print Assumptions C24_in_range.

Example C24_in_range_ex : in_range ex_W 16 13 /\ in_range ex_W 16 4294967270 /\ ~ in_range ex_W 16 4294967290.
Proof. unfold in_range, ex_W. vm_compute. repeat split; congruence. Qed.

(** The heap has no check for requests beyond that.  On a fresh heap, asking for the largest size (which
    wraps to zero when rounded) yields a block with no usable byte. *)
Theorem C24_rounding_refuted : forall W HL base len h0 h,
  0 < HL -> 0 < base -> 2 * HL <= len -> 3 < W -> HL < W -> heap_init HL h0 base len = Some h ->
  exists h' a, allocate W HL (fuel_of len) h (W - 1) = Some (h', a) /\ a <> 0 /\ sz (hm h') (a - HL) = 0.
Proof.
  intros W HL base len h0 h H1 H2 H3 H4 H5 E.
  unfold heap_init in E. destruct (N.eqb_spec base 0), (N.leb_spec len HL); cbn [orb] in E; try discriminate.
  assert (Eh : h = Heap (set_pv (set_nx (set_sz (set_mg (hm h0) base MAGIC) base (len - HL)) base 0) base 0) (bytes h0) base 0) by congruence. subst h. clear E.
  unfold allocate. cbv zeta. assert (ER : round4 W (W - 1) = 0).
  { unfold round4. replace (W - 1 + 3) with (2 + 1 * W) by lia. rewrite N.mod_add, N.mod_small by lia. reflexivity. }
  rewrite ER, N.add_0_l, N.mod_small by lia. unfold fuel_of. cbn [find fl hm set_pv set_nx set_sz set_mg sz].
  rewrite put_same. rewrite (proj2 (N.eqb_neq base 0)), (proj2 (N.eqb_neq (len - HL) 0)), (proj2 (N.leb_le HL (len - HL))) by lia.
  rewrite !put_same. unfold push_allocated. cbn [al]. rewrite N.eqb_refl. eexists _, _. split; [reflexivity|]. split; [lia|].
  set (x := base + HL + (len - HL - HL)). replace (x + HL - HL) with x by lia. cbn [hm set_pv set_nx set_sz set_mg sz]. apply put_same.
Qed.
Print Assumptions C24_rounding_refuted.

(** Asking for the integer limit less the size of a control block yields a block whose control block
    starts at the end of the heap, so that the control block itself is written outside the heap. *)
Theorem C24_header_refuted : forall W HL base len h0 h,
  0 < HL -> HL mod 4 = 0 -> W mod 4 = 0 -> 0 < base -> HL + 3 < W -> len < W -> heap_init HL h0 base len = Some h ->
  exists h', allocate W HL (fuel_of len) h (W - HL) = Some (h', base + len + HL) /\ mg (hm h') (base + len) = MAGIC.
Proof.
  intros W HL base len h0 h H1 M1 M2 H2 H4 H5 E.
  unfold heap_init in E. destruct (N.eqb_spec base 0), (N.leb_spec len HL); cbn [orb] in E; try discriminate.
  assert (Eh : h = Heap (set_pv (set_nx (set_sz (set_mg (hm h0) base MAGIC) base (len - HL)) base 0) base 0) (bytes h0) base 0) by congruence. subst h. clear E.
  unfold allocate. cbv zeta. assert (ER : round4 W (W - HL) = W - HL).
  { unfold round4. destruct (N.le_gt_cases HL 3) as [L|L].
    - exfalso. assert (HL = 1 \/ HL = 2 \/ HL = 3) as [->|[->| ->]] by lia; vm_compute in M1; discriminate.
    - rewrite N.mod_small by lia. pose proof (N.div_mod' W 4). pose proof (N.div_mod' HL 4).
      replace (W - HL + 3) with (3 + (W / 4 - HL / 4) * 4) by lia. rewrite N.div_add by lia. change (3 / 4) with 0. lia. }
  rewrite ER. replace (W - HL + HL) with (0 + 1 * W) by lia. rewrite N.mod_add, N.mod_0_l by lia. unfold fuel_of. cbn [find fl hm set_pv set_nx set_sz set_mg sz].
  rewrite put_same. rewrite (proj2 (N.eqb_neq base 0)) by lia. 
  destruct (N.eqb_spec (len - HL) (W - HL)) as [Ex|Ex]; [lia|]. rewrite (proj2 (N.leb_le 0 (len - HL))) by lia.
  rewrite !put_same. unfold push_allocated. cbn [al]. rewrite N.eqb_refl. cbn [hm set_pv set_nx set_sz set_mg sz mg].
  replace (base + HL + (len - HL - 0)) with (base + len) by lia. eexists. split; [reflexivity|]. cbn [hm mg]. apply put_same.
Qed.
Print Assumptions C24_header_refuted.

(** A zeroed allocation whose item count times item size wraps to zero yields a block with no usable
    byte: for instance [2] items of half the range each. *)
Theorem C24_product_refuted : forall W HL base len h0 h k n,
  0 < HL -> 0 < base -> 2 * HL <= len -> 3 < W -> HL < W -> heap_init HL h0 base len = Some h -> (k * n) mod W = 0 ->
  exists h' a, allocate_zeroize W HL (fuel_of len) h k n = Some (h', a) /\ a <> 0 /\ sz (hm h') (a - HL) = 0.
Proof.
  intros W HL base len h0 h k n H1 H2 H3 H4 H5 E Ek.
  destruct (C24_rounding_refuted W HL base len h0 h H1 H2 H3 H4 H5 E) as (h' & a & Ea & Ha & Es).
  assert (E0 : allocate W HL (fuel_of len) h 0 = allocate W HL (fuel_of len) h (W - 1)).
  { unfold allocate. assert (R0 : round4 W 0 = 0) by (unfold round4; rewrite N.mod_small by lia; reflexivity).
    assert (R1 : round4 W (W - 1) = 0) by (unfold round4; replace (W - 1 + 3) with (2 + 1 * W) by lia; rewrite N.mod_add, N.mod_small by lia; reflexivity).
    now rewrite R0, R1. }
  unfold allocate_zeroize. cbv zeta. rewrite Ek, E0, Ea. rewrite (proj2 (N.eqb_neq a 0)) by assumption. eexists _, a. split; [reflexivity|]. cbn [hm]. auto.
Qed.
Print Assumptions C24_product_refuted.

Example C24_product_ex : (2 * 2147483648) mod ex_W = 0.
Proof. reflexivity. Qed.
