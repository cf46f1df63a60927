(** C27-C30 and C39: validating, comparing, migrating and restoring host firmware, the SPI filter
    and version recognition.  Device faults, cryptography and stale stack contents are arbitrary. *)
From Coq Require Import List NArith Lia Bool Arith Permutation.
From Verif Require Import Base Flash_Base FlashUtil_Model HostFw_Model HostFw_Spec HostFw_Walk_Proofs
  HostFw_Verify_Proofs HostFw_Compare_Proofs HostFw_Flash_Proofs HostFw_Restore_Proofs HostFw_Filter_Proofs.
Import ListNotations.
Local Open Scope N_scope.

Definition images_of (ils : list image_list) : list region := concat (concat (map image_regions ils)).

(** C27: if full validation succeeds, every image of every firmware component authenticates and every
    byte of the flash is in an image region, in a read/write region, or has the unused value.  The
    region lists may overlap or be unordered. *)
Theorem C27_full_validation : forall rfail hash rsa_verify stale dlen m fsize unused ils writable,
  digests hash dlen -> bytes_ok stale -> (forall il, In il ils -> parsed dlen il) ->
  in_space (images_of ils ++ concat writable) -> fsize < 2 ^ 32 ->
  full_verification rfail hash rsa_verify stale m fsize unused ils writable = Some HfOk ->
  (forall il, In il ils -> authentic hash rsa_verify m il) /\
  (forall x, x < fsize -> covered (images_of ils) x \/ covered (concat writable) x \/ m x = unused).
Proof.
  intros rfail hash rsa_verify stale dlen m fsize unused ils w D BS P SP FS H. unfold full_verification in H.
  destruct (verify_all_fw rfail hash rsa_verify stale m true 0 ils) eqn:V; try discriminate.
  split; [now apply (verify_all_ok rfail hash rsa_verify stale dlen m ils)|]. intros x Hx.
  destruct (unused_walk_sound rfail hash rsa_verify stale m (all_regions ils w) _ fsize unused (find_next_flash_finds ils w) FS SP
    _ 0 ltac:(intros; lia) H x Hx) as [(r & Hr & I1)|U]; auto.
  unfold all_regions in Hr. apply in_app_or in Hr. destruct Hr as [Hr|Hr]; [left|right; left]; exists r; auto.
Qed.
Print Assumptions C27_full_validation.

(** A flash that satisfies all this is accepted, for separate non-empty regions inside the flash and
    reads that do not fail. *)
Theorem C27_accepts : forall rfail hash rsa_verify stale dlen m fsize unused ils writable,
  digests hash dlen -> bytes_ok stale -> (forall x, rfail x = false) -> fsize < 2 ^ 32 ->
  good (images_of ils ++ concat writable) ->
  (forall r, In r (images_of ils ++ concat writable) -> start r + len r <= fsize) ->
  (forall il, In il ils -> parsed dlen il /\ not_empty il /\ authentic hash rsa_verify m il) ->
  (forall x, x < fsize -> covered (images_of ils) x \/ covered (concat writable) x \/ m x = unused) ->
  full_verification rfail hash rsa_verify stale m fsize unused ils writable = Some HfOk.
Proof.
  intros rfail hash rsa_verify stale dlen m fsize unused ils w D BS NF FS G IN A ACC. unfold full_verification.
  rewrite (verify_all_total rfail hash rsa_verify stale dlen m ils D BS NF A).
  apply (unused_walk_total rfail hash rsa_verify stale m (all_regions ils w) _ fsize unused (find_next_flash_finds ils w) FS G IN NF).
  - intros x Hx. destruct (ACC x Hx) as [(r & Hr & I1)|[(r & Hr & I1)|U]]; [left; exists r|left; exists r|right; auto];
      split; auto; apply in_or_app; auto.
  - apply above_all.
  - lia.
  - intros r Hr Hl. lia.
Qed.
Print Assumptions C27_accepts.

(** Toy cryptography for the examples: the digest is the sum of the bytes, the signature the digest. *)
Definition toy_hash (t : N) (msg : list N) : option (list N) := Some [fold_left N.add msg t mod 256].
Definition toy_rsa (k : rsa_key) (s h : list N) : bool := (nth 0 s 0 =? nth 0 h 1).
Lemma toy_digests : digests toy_hash (fun _ => 1%nat).
Proof.
  intros t msg d H. injection H as <-. split; [reflexivity|]. repeat constructor. unfold byte_ok.
  apply N.mod_lt. discriminate.
Qed.

Definition ex_flash : image := fun x => if x <? 4 then x + 1 else if x <? 8 then 9 else 255.
Definition ex_images : list image_list := [HashImages [mkHash [mkR 2 2; mkR 0 1] [8] 1 0 0]].
Definition ex_rw : list (list region) := [[mkR 4 4]; [mkR 1 1]].

Example C27_ex : full_verification (fun _ => false) toy_hash toy_rsa [0] ex_flash 20 255 ex_images ex_rw = Some HfOk /\
  full_verification (fun _ => false) toy_hash toy_rsa [0] ex_flash 20 0 ex_images ex_rw = Some (HfFlash FuMismatch) /\
  in_space (images_of ex_images ++ concat ex_rw) /\ (forall il, In il ex_images -> parsed (fun _ => 1%nat) il) /\
  good (images_of ex_images ++ concat ex_rw).
Proof.
  split; [vm_compute; reflexivity|]. split; [vm_compute; reflexivity|]. split; [|split].
  - repeat constructor.
  - intros il [<-|[]]. intros i [<-|[]]. cbn. split; [reflexivity|split; [lia|repeat constructor]].
  - split; [repeat constructor|]. cbn. 
    repeat (constructor; [repeat (constructor; [intros x (X1 & X2); unfold inside in *; cbn in *; lia|]); constructor|]). constructor.
Qed.

(** Overlapping regions: the walk continues at the end of the first, so the rest of a region that
    starts inside it is taken for unused space. *)
Theorem C27_overlap_refuted : exists m fsize unused writable,
  (forall x, x < fsize -> covered (concat writable) x \/ m x = unused) /\
  full_verification (fun _ => false) toy_hash toy_rsa [0] m fsize unused [] writable = Some (HfFlash FuMismatch).
Proof.
  exists (fun x => if x <? 12 then 7 else 255), 16, 255, [[mkR 0 8; mkR 4 8]]. split; [|vm_compute; reflexivity].
  intros x Hx. destruct (N.ltb_spec x 12); [left|auto].
  destruct (N.lt_ge_cases x 8); [exists (mkR 0 8)|exists (mkR 4 8)]; (split; [cbn; auto|unfold inside; cbn; lia]).
Qed.
Print Assumptions C27_overlap_refuted.

(** An empty region: the walk does not get past it. *)
Theorem C27_empty_region_refuted : exists writable, forall turns,
  unused_walk (fun _ => false) turns (fun _ => 255) (fun last => find_next_flash last [] writable) 0 1024 255 = None.
Proof.
  exists [[mkR 0 0]]. induction turns as [|k IH]; [reflexivity|].
  change (match value_check (fun _ => false) (fun _ => 255) 0 (N.to_nat (sub32 0 0)) 255 with
          | FuOk => unused_walk (fun _ => false) k (fun _ => 255) (fun last => find_next_flash last [] [[mkR 0 0]]) (past (mkR 0 0)) 1024 255
          | r => Some (HfFlash r) end = None).
  exact IH.
Qed.
Print Assumptions C27_empty_region_refuted.

(** C28: two region lists compare as equal exactly when they hold the same regions, in any order.
    The comparison always comes to an end. *)
Theorem C28_regions : forall r1 r2, good r1 ->
  (regions_differ r1 r2 = Some true \/ regions_differ r1 r2 = Some false) /\
  (regions_differ r1 r2 = Some false <-> Permutation r1 r2).
Proof.
  intros r1 r2 G. destruct (regions_differ_spec r1 r2 G) as (A & B). split; auto.
  destruct (regions_differ r1 r2) as [[|]|]; auto. contradiction.
Qed.
Print Assumptions C28_regions.

(** Image lists that compare as equal are the same, if no later authenticator is longer than the first. *)
Theorem C28_images_equal : forall a b, images_fit a -> images_fit b -> regions_good a ->
  Forall (fun n => (n <= hd 0 (auth_lengths a))%nat) (auth_lengths a) ->
  images_differ a b = Some false -> same_images a b.
Proof. exact images_differ_sound. Qed.
Print Assumptions C28_images_equal.

(** The same lists compare as equal, if no later authenticator is shorter than the first. *)
Theorem C28_images_same : forall a b, images_fit a -> images_fit b -> regions_good a ->
  Forall (fun n => (hd 0 (auth_lengths a) <= n)%nat) (auth_lengths a) ->
  same_images a b -> images_differ a b = Some false.
Proof. exact images_differ_complete. Qed.
Print Assumptions C28_images_same.

Theorem C28_images_ends : forall a b, regions_good a -> images_differ a b <> None.
Proof. exact images_differ_ends. Qed.
Print Assumptions C28_images_ends.

Definition ex_hash (k : nat) (last : N) : list N := repeat 3 k ++ [last] ++ repeat 0 (63 - k).
Definition ex_list (l1 l2 : nat) (v1 v2 : N) (rs : list region) : option image_list :=
  Some (HashImages [mkHash [mkR 0 16] (ex_hash 20 v1) l1 1 0; mkHash rs (ex_hash 40 v2) l2 1 0]).

Lemma ex_hash_fits : forall rs k v l, (k <= 63)%nat -> v < 256 -> (l <= 64)%nat -> hash_fits (mkHash rs (ex_hash k v) l 1 0).
Proof.
  intros rs k v l H V L. unfold hash_fits, array, ex_hash. cbn [hi_hash hi_len]. split; [|split; [|exact L]].
  - rewrite !app_length, !repeat_length. cbn [length]. lia.
  - unfold bytes_ok. rewrite !Forall_app. split; [|split; [repeat constructor; exact V|]];
      apply Forall_forall; intros x Hx; apply repeat_spec in Hx; subst x; reflexivity.
Qed.

Example C28_ex :
  images_fit (ex_list 48 48 1 2 [mkR 32 8; mkR 16 8]) /\ regions_good (ex_list 48 48 1 2 [mkR 32 8; mkR 16 8]) /\
  Forall (fun n => (n <= hd 0 (auth_lengths (ex_list 48 48 1 2 [mkR 32 8; mkR 16 8])))%nat) (auth_lengths (ex_list 48 48 1 2 [mkR 32 8; mkR 16 8])) /\
  images_differ (ex_list 48 48 1 2 [mkR 32 8; mkR 16 8]) (ex_list 48 48 1 2 [mkR 16 8; mkR 32 8]) = Some false /\
  images_differ (ex_list 48 48 1 2 [mkR 32 8; mkR 16 8]) (ex_list 48 48 1 3 [mkR 16 8; mkR 32 8]) = Some true.
Proof.
  split; [|split; [|split; [|split; vm_compute; reflexivity]]].
  - unfold ex_list, images_fit. repeat (constructor; [apply ex_hash_fits; lia|]). constructor.
  - unfold ex_list, regions_good, image_regions. cbn [map hi_regions].
    repeat (constructor; [split; [repeat constructor|repeat (constructor; [repeat (constructor; [intros x (X1 & X2); unfold inside in *; cbn in *; lia|]); constructor|]); constructor]|]).
    constructor.
  - cbn. repeat constructor.
Qed.

(** Only as many bytes as the first authenticator has are compared, so a difference near the end of a
    longer one goes unnoticed... *)
Theorem C28_longer_authenticator_refuted : exists a b, images_fit a /\ images_fit b /\ regions_good a /\
  images_differ a b = Some false /\ ~ same_images a b.
Proof.
  exists (ex_list 32 48 1 2 [mkR 16 8]), (ex_list 32 48 1 3 [mkR 16 8]).
  split; [unfold ex_list, images_fit; repeat (constructor; [apply ex_hash_fits; lia|]); constructor|].
  split; [unfold ex_list, images_fit; repeat (constructor; [apply ex_hash_fits; lia|]); constructor|].
  split; [|split; [vm_compute; reflexivity|]].
  - unfold ex_list, regions_good, image_regions. cbn [map hi_regions].
    repeat (constructor; [split; [repeat constructor|repeat (constructor; [constructor|]); constructor]|]). constructor.
  - intros H. cbn [same_images ex_list] in H. inversion H as [|? ? ? ? _ H2]; subst. inversion H2 as [|? ? ? ? S _]; subst.
    destruct S as (_ & _ & _ & S & _). vm_compute in S. discriminate.
Qed.
Print Assumptions C28_longer_authenticator_refuted.

(** ... and bytes past the end of a shorter one, which mean nothing, make the lists different. *)
Theorem C28_shorter_authenticator_refuted : exists a b, images_fit a /\ images_fit b /\ regions_good a /\
  images_differ a b = Some true /\ same_images a b.
Proof.
  exists (ex_list 48 32 1 2 [mkR 16 8]), (ex_list 48 32 1 3 [mkR 16 8]).
  split; [unfold ex_list, images_fit; repeat (constructor; [apply ex_hash_fits; lia|]); constructor|].
  split; [unfold ex_list, images_fit; repeat (constructor; [apply ex_hash_fits; lia|]); constructor|].
  split; [|split; [vm_compute; reflexivity|]].
  - unfold ex_list, regions_good, image_regions. cbn [map hi_regions].
    repeat (constructor; [split; [repeat constructor|repeat (constructor; [constructor|]); constructor]|]). constructor.
  - cbn [same_images ex_list]. repeat constructor.
Qed.
Print Assumptions C28_shorter_authenticator_refuted.

(** Regions starting inside another one are not compared. *)
Theorem C28_overlap_refuted : exists r1 r2, Forall proper r1 /\ Forall proper r2 /\
  regions_differ r1 r2 = Some false /\ ~ Permutation r1 r2.
Proof.
  exists [mkR 0 8; mkR 4 8], [mkR 0 8; mkR 6 1]. split; [|split; [|split]].
  - repeat constructor.
  - repeat constructor.
  - vm_compute. reflexivity.
  - intros P. apply (Permutation_in (mkR 4 8)) in P; [|cbn; auto]. cbn in P. destruct P as [P|[P|[]]]; discriminate.
Qed.
Print Assumptions C28_overlap_refuted.

(** A list with an empty region is compared with itself for ever; so is one with a region that ends
    at the end of the address space. *)
Theorem C28_endless_refuted : forall turns,
  regions_differ_loop turns 0 [mkR 0 0] [mkR 0 0] = None /\
  regions_differ_loop turns 0 [mkR (2 ^ 31) (2 ^ 31)] [mkR (2 ^ 31) (2 ^ 31)] = None.
Proof.
  intros turns. split.
  - induction turns as [|k IH]; [reflexivity|exact IH].
  - induction turns as [|k IH]; [reflexivity|].
    change (regions_differ_loop k (past (mkR (2 ^ 31) (2 ^ 31))) [mkR (2 ^ 31) (2 ^ 31)] [mkR (2 ^ 31) (2 ^ 31)] = None).
    change (past (mkR (2 ^ 31) (2 ^ 31))) with 0. exact IH.
Qed.
Print Assumptions C28_endless_refuted.

(** C29: migration.  On success every byte of every region is the source's byte; the rest of the erase
    blocks they touch is blank and everything else is as it was.  It comes to an end, and fails only
    because of a mismatch of the region lists or a device error. *)
Theorem C29_migrate : forall rfail efail wres blk page m dest src srcw m' o,
  0 < blk -> 0 < page -> good dest -> bytes_img src ->
  migrate rfail efail wres blk page m dest src srcw = (m', o) ->
  (o = Some HfOk \/ (exists r, o = Some r /\ diff r) \/ exists e, o = Some (HfFlash e)) /\
  (o = Some HfOk -> forall x, (covered dest x -> m' x = src x) /\
     (touched blk dest x -> ~ covered dest x -> m' x = 255)) /\
  (forall x, ~ touched blk dest x -> m' x = m x).
Proof.
  intros rfail efail wres blk page m dest src srcw m' o HB HP G BS H.
  destruct (migrate_spec rfail efail wres blk page HB HP m dest src srcw m' o G BS H) as (A & B & C & _).
  split; auto. split; auto. intros Q x. destruct (C Q) as (C1 & C2). auto.
Qed.
Print Assumptions C29_migrate.

(** The compatibility check: with the source's regions given, success means that both devices have the
    same regions, and lists with the same regions are never refused.  When the lists do not match, the
    destination's regions are left blank. *)
Theorem C29_compatibility : forall rfail efail wres blk page m dest src srcw m' o,
  0 < blk -> 0 < page -> good dest -> bytes_img src ->
  migrate rfail efail wres blk page m dest src srcw = (m', o) ->
  (o = Some HfOk -> forall s, srcw = Some s -> good s -> Permutation dest s) /\
  (forall s, srcw = Some s -> Permutation dest s -> forall r, o = Some r -> ~ diff r) /\
  (srcw = None -> forall r, o = Some r -> ~ diff r) /\
  (forall r, o = Some r -> diff r -> forall x, covered dest x -> m' x = 255).
Proof.
  intros rfail efail wres blk page m dest src srcw m' o HB HP G BS H.
  destruct (migrate_spec rfail efail wres blk page HB HP m dest src srcw m' o G BS H) as (A & B & C & D & E & F & I1).
  split; [auto|split; [auto|split; [auto|]]]. intros r Q R x Hx. eapply D; eauto. now apply covered_touched.
Qed.
Print Assumptions C29_compatibility.

(** Several firmware components, none of which shares an erase block with another. *)
Theorem C29_migrate_multiple : forall rfail efail wres blk page m dests src srcws m' o,
  0 < blk -> 0 < page -> Forall good dests -> ForallOrdPairs (apart blk) dests -> bytes_img src ->
  migrate_multiple rfail efail wres blk page m dests src srcws = (m', o) ->
  (o = Some HfOk -> (forall ss, srcws = Some ss -> length ss = length dests) /\
     forall d x, In d dests -> covered d x -> m' x = src x) /\
  (forall r, o = Some r -> diff r -> forall d, In d dests ->
     (forall x, covered d x -> m' x = src x) \/ (forall x, covered d x -> m' x = 255)) /\
  (forall x, (forall d, In d dests -> ~ touched blk d x) -> m' x = m x) /\ o <> None.
Proof.
  intros rfail efail wres blk page m dests src srcws m' o HB HP G A BS H. unfold migrate_multiple in H.
  assert (K: forall ss, migrate_each rfail efail wres blk page m HfOk dests src ss = (m', o) ->
    (o = Some HfOk -> forall d x, In d dests -> covered d x -> m' x = src x) /\
    (forall r, o = Some r -> diff r -> forall d, In d dests ->
     (forall x, covered d x -> m' x = src x) \/ (forall x, covered d x -> m' x = 255)) /\
    (forall x, (forall d, In d dests -> ~ touched blk d x) -> m' x = m x) /\ o <> None).
  { intros ss Q. destruct (migrate_each_spec rfail efail wres blk page HB HP src BS dests m HfOk ss m' o G A (or_introl eq_refl) Q) as (A1 & A2 & A3 & A4).
    split; [intros E d x Hd Hx; apply (proj2 (A3 E) d Hd x Hx)|split; [auto|split; [auto|]]].
    destruct A2 as [->|[(r & -> & _)|(e & ->)]]; discriminate. }
  destruct srcws as [ss|].
  - destruct (Nat.eqb_spec (length dests) (length ss)) as [L|L].
    + destruct (K _ H) as (K1 & K2 & K3 & K4). split; [|split; [auto|split; auto]]. intros Q. split; [intros s E; injection E as <-; auto|exact (K1 Q)].
    + injection H as <- <-. split; [discriminate|]. split; [|split; [auto|discriminate]].
      intros r Q D. injection Q as <-. destruct D as [D|[D|D]]; discriminate.
  - destruct (K _ H) as (K1 & K2 & K3 & K4). split; [|split; [auto|split; auto]]. intros Q. split; [discriminate|exact (K1 Q)].
Qed.
Print Assumptions C29_migrate_multiple.

(** Restoring read/write data: every region gets what its property asks for. *)
Theorem C29_restore_rw : forall rfail efail wres blk page m src ws m' o,
  0 < blk -> 0 < page -> (forall s, src = Some s -> bytes_img s) ->
  ForallOrdPairs (fun a b => apart blk [fst a] [fst b]) (concat ws) ->
  restore_rw_multiple rfail efail wres blk page m src ws = (m', o) ->
  (o = HfOk -> forall w r prop, In w ws -> In (r, prop) w -> forall x, inside r x -> m' x = wanted prop src m x) /\
  (forall x, ~ touched blk (map fst (concat ws)) x -> m' x = m x).
Proof.
  intros rfail efail wres blk page m src ws m' o HB HP BS A H. rewrite restore_rw_concat in H.
  destruct (restore_rw_spec rfail efail wres blk page HB HP src BS _ _ _ _ A H) as (A1 & A2 & A3).
  split; auto. intros Q w r prop Hw Hr. apply A3; auto. apply in_concat. eauto.
Qed.
Print Assumptions C29_restore_rw.

(** Restoring the device: image regions get the other flash's contents, everything else that is not
    read/write is blank, and read/write data in blocks of its own stays. *)
Theorem C29_restore_device : forall rfail efail wres blk page m src fsize il writable m' o,
  0 < blk -> 0 < page -> good (concat (image_regions il) ++ writable) -> fsize < 2 ^ 32 -> bytes_img src ->
  (forall r, In r (concat (image_regions il) ++ writable) -> start r + len r <= fsize) ->
  restore_device rfail efail wres blk page m src fsize il writable = (m', o) ->
  o <> None /\
  (o = Some HfOk -> forall x,
     (covered (concat (image_regions il)) x -> m' x = src x) /\
     (read_only fsize writable x -> ~ covered (concat (image_regions il)) x -> m' x = 255)) /\
  (forall x, ~ covered (concat (image_regions il)) x ->
     (forall y, read_only fsize writable y -> y / blk <> x / blk) -> m' x = m x).
Proof. intros. now apply (restore_device_spec rfail efail wres blk page). Qed.
Print Assumptions C29_restore_device.

Definition quiet (n : nat) : N -> option nat := fun _ => Some n.
Definition ex_src : image := fun x => x mod 256.
Lemma ex_src_bytes : bytes_img ex_src.
Proof. intros x. unfold ex_src, byte_ok. apply N.mod_lt. discriminate. Qed.

Definition shown (p : image * option hf_result) : list N * option hf_result := (img_read (fst p) 0 16, snd p).

Example C29_ex : good [mkR 9 3; mkR 1 2] /\
  shown (migrate (fun _ => false) (fun _ => false) (quiet 600) 4 4 (fun _ => 7) [mkR 9 3; mkR 1 2] ex_src (Some [mkR 1 2; mkR 9 3]))
    = ([255; 1; 2; 255; 7; 7; 7; 7; 255; 9; 10; 11; 7; 7; 7; 7], Some HfOk) /\
  shown (migrate (fun _ => false) (fun _ => false) (quiet 600) 4 4 (fun _ => 7) [mkR 9 3; mkR 1 2] ex_src (Some [mkR 1 2; mkR 9 2]))
    = ([255; 255; 255; 255; 7; 7; 7; 7; 255; 255; 255; 255; 7; 7; 7; 7], Some HfDiffSize) /\
  shown (restore_device (fun _ => false) (fun _ => false) (quiet 600) 4 4 (fun _ => 7) ex_src 16
          (HashImages [mkHash [mkR 2 5] [] 0 1 0]) [mkR 8 4])
    = ([255; 255; 2; 3; 4; 5; 6; 255; 7; 7; 7; 7; 255; 255; 255; 255], Some HfOk).
Proof.
  split; [|vm_compute; auto]. split; [repeat constructor|].
  repeat (constructor; [repeat (constructor; [intros x (X1 & X2); unfold inside in *; cbn in *; lia|]); constructor|]). constructor.
Qed.

Example C29_restore_ex :
  ForallOrdPairs (fun a b => apart 4 [fst a] [fst b]) [(mkR 0 3, RwErase); (mkR 4 4, RwRestore); (mkR 8 2, RwIgnore)] /\
  let '(m', o) := restore_rw_multiple (fun _ => false) (fun _ => false) (quiet 600) 4 4 (fun _ => 7) (Some ex_src)
     [[(mkR 0 3, RwErase); (mkR 4 4, RwRestore)]; [(mkR 8 2, RwIgnore)]] in
  o = HfOk /\ img_read m' 0 12 = [255; 255; 255; 255; 4; 5; 6; 7; 7; 7; 7; 7].
Proof.
  split; [|vm_compute; auto].
  repeat (constructor; [repeat (constructor; [intros x ((r & [<-|[]] & y & Y1 & Y2) & (s & [<-|[]] & z & Z1 & Z2));
    unfold inside in *; cbn in *; pose proof (N.div_mod y 4 ltac:(discriminate)); pose proof (N.mod_lt y 4 ltac:(discriminate));
    pose proof (N.div_mod z 4 ltac:(discriminate)); pose proof (N.mod_lt z 4 ltac:(discriminate)); lia|]); constructor|]).
  constructor.
Qed.

(** Components that share an erase block: the second one's erase destroys what was migrated for the
    first, and success is reported. *)
Theorem C29_shared_block_refuted : exists blk page m dests src m',
  good (concat dests) /\
  migrate_multiple (fun _ => false) (fun _ => false) (quiet 600) blk page m dests src None = (m', Some HfOk) /\
  exists d x, In d dests /\ covered d x /\ m' x <> src x.
Proof.
  exists 4, 4, (fun _ => 7), [[mkR 0 2]; [mkR 2 2]], ex_src.
  exists (fst (migrate_multiple (fun _ => false) (fun _ => false) (quiet 600) 4 4 (fun _ => 7) [[mkR 0 2]; [mkR 2 2]] ex_src None)).
  split; [|split].
  - split; [repeat constructor|].
    repeat (constructor; [repeat (constructor; [intros x (X1 & X2); unfold inside in *; cbn in *; lia|]); constructor|]). constructor.
  - assert (E: snd (migrate_multiple (fun _ => false) (fun _ => false) (quiet 600) 4 4 (fun _ => 7) [[mkR 0 2]; [mkR 2 2]] ex_src None) = Some HfOk)
      by (vm_compute; reflexivity).
    rewrite <- E. now rewrite <- surjective_pairing.
  - exists [mkR 0 2], 1. split; [cbn; auto|]. split; [exists (mkR 0 2); split; [cbn; auto|unfold inside; cbn; lia]|].
    vm_compute. discriminate.
Qed.
Print Assumptions C29_shared_block_refuted.

(** The same for the regions of one component when they are restored. *)
Theorem C29_restore_shared_block_refuted : exists blk page m src ws m',
  good (map fst ws) /\ restore_rw (fun _ => false) (fun _ => false) (quiet 600) blk page m (Some src) ws = (m', HfOk) /\
  exists r x, In (r, RwRestore) ws /\ inside r x /\ m' x <> src x.
Proof.
  exists 4, 4, (fun _ => 7), ex_src, [(mkR 0 2, RwRestore); (mkR 2 2, RwErase)].
  exists (fst (restore_rw (fun _ => false) (fun _ => false) (quiet 600) 4 4 (fun _ => 7) (Some ex_src) [(mkR 0 2, RwRestore); (mkR 2 2, RwErase)])).
  split; [|split].
  - split; [repeat constructor|].
    repeat (constructor; [repeat (constructor; [intros x (X1 & X2); unfold inside in *; cbn in *; lia|]); constructor|]). constructor.
  - assert (E: snd (restore_rw (fun _ => false) (fun _ => false) (quiet 600) 4 4 (fun _ => 7) (Some ex_src) [(mkR 0 2, RwRestore); (mkR 2 2, RwErase)]) = HfOk)
      by (vm_compute; reflexivity).
    rewrite <- E. now rewrite <- surjective_pairing.
  - exists (mkR 0 2), 1. split; [cbn; auto|]. split; [unfold inside; cbn; lia|]. vm_compute. discriminate.
Qed.
Print Assumptions C29_restore_shared_block_refuted.

(** A region that starts inside another one is not migrated past the other's end. *)
Theorem C29_overlap_refuted : exists m dest src m',
  Forall proper dest /\
  migrate (fun _ => false) (fun _ => false) (quiet 600) 4 4 m dest src None = (m', Some HfOk) /\
  exists x, covered dest x /\ m' x = m x /\ m' x <> src x.
Proof.
  exists (fun _ => 7), [mkR 0 4; mkR 2 8], ex_src.
  exists (fst (migrate (fun _ => false) (fun _ => false) (quiet 600) 4 4 (fun _ => 7) [mkR 0 4; mkR 2 8] ex_src None)).
  split; [repeat constructor|split].
  - assert (E: snd (migrate (fun _ => false) (fun _ => false) (quiet 600) 4 4 (fun _ => 7) [mkR 0 4; mkR 2 8] ex_src None) = Some HfOk)
      by (vm_compute; reflexivity).
    rewrite <- E. now rewrite <- surjective_pairing.
  - exists 8. split; [exists (mkR 2 8); split; [cbn; auto|unfold inside; cbn; lia]|]. split; vm_compute; [reflexivity|discriminate].
Qed.
Print Assumptions C29_overlap_refuted.

(** C30: configuring the filter for one component: whatever the result, only declared addresses are
    writable, unless clearing fails, which leaves the filter as it was; on success all of them are. *)
Theorem C30_filter : forall clear_ok set_ok f rs f' r, Forall fits rs -> (length rs <= 255)%nat ->
  config_filter clear_ok set_ok f rs = (f', r) ->
  (clear_ok = false -> f' = f /\ r = HfFilter) /\
  (clear_ok = true -> forall x, x < 2 ^ 32 -> writable_by f' x -> covered rs x) /\
  (r = HfOk -> forall x, covered rs x -> writable_by f' x) /\
  (clear_ok = true -> (forall k, set_ok k = true) -> r = HfOk).
Proof.
  intros clear_ok set_ok f rs f' r F L H. unfold config_filter in H. destruct clear_ok.
  - destruct (filter_each_spec set_ok rs (fun _ => None) 0 f' r F ltac:(lia) ltac:(intros k NE; now destruct NE) H) as (A & B & C & D & E).
    split; [discriminate|]. split; [|split; auto]. intros _ x X W. apply A in W; auto. destruct W as [(k & s & e & W & _)|W]; [discriminate|auto].
  - injection H as <- <-. split; [auto|]. split; [discriminate|split; discriminate].
Qed.
Print Assumptions C30_filter.

(** The same for several components, whose adjacent regions are merged. *)
Theorem C30_filter_merged : forall clear_ok set_ok f rss f' o, good (concat rss) -> (length (concat rss) <= 255)%nat ->
  config_filter_multiple clear_ok set_ok f rss = (f', o) ->
  (clear_ok = false -> f' = f /\ o = Some HfFilter) /\
  (clear_ok = true -> forall x, writable_by f' x -> covered (concat rss) x) /\
  (o = Some HfOk -> forall x, covered (concat rss) x -> writable_by f' x) /\
  (o = Some HfOk \/ o = Some HfFilter) /\
  (clear_ok = true -> (forall k, set_ok k = true) -> o = Some HfOk).
Proof.
  intros clear_ok set_ok f rss f' o G L H. unfold config_filter_multiple in H. destruct clear_ok.
  - assert (J: inv rss (fun _ => None) 0 None 0 0).
    { constructor.
      - intros x (k & s & e & W & _). discriminate.
      - intros x r Hr Hl. lia.
      - discriminate.
      - intros r Hr Hl. lia.
      - intros k NE. now destruct NE.
      - pose proof (above_all 0 (concat rss)). lia. }
    destruct (filter_merge_spec set_ok rss G _ _ _ None None _ _ f' o J H) as (A & B & C & D).
    pose proof (above_all 0 (concat rss)).
    split; [discriminate|]. split; [auto|]. split; [auto|]. split; [apply C; lia|]. intros _. apply D. lia.
  - injection H as <- <-. split; [auto|]. split; [discriminate|split; [discriminate|split; [auto|discriminate]]].
Qed.
Print Assumptions C30_filter_merged.

Example C30_ex : good (concat [[mkR 32 16; mkR 0 8]; [mkR 8 8; mkR 64 1]]) /\
  let '(f, o) := config_filter_multiple true (fun _ => true) (fun _ => Some (0, 0)) [[mkR 32 16; mkR 0 8]; [mkR 8 8; mkR 64 1]] in
  o = Some HfOk /\ map f [0; 1; 2; 3; 4] = [None; Some (0, 16); Some (32, 48); Some (64, 65); None].
Proof.
  split; [|vm_compute; auto]. split; [repeat constructor|].
  repeat (constructor; [repeat (constructor; [intros x (X1 & X2); unfold inside in *; cbn in *; lia|]); constructor|]). constructor.
Qed.
Example C30_single_ex : Forall fits [mkR (2 ^ 31) (2 ^ 31); mkR 16 16] /\
  let '(f, o) := config_filter true (fun _ => true) (fun _ => None) [mkR (2 ^ 31) (2 ^ 31); mkR 16 16] in
  o = HfOk /\ map f [1; 2; 3] = [Some (2 ^ 31, 0); Some (16, 32); None].
Proof. split; [repeat constructor; vm_compute; congruence|vm_compute; auto]. Qed.

(** An empty region at address 0 makes the whole flash writable: an end of 0 is the end of memory. *)
Theorem C30_empty_region_refuted : exists f rs f', config_filter true (fun _ => true) f rs = (f', HfOk) /\
  (forall x, ~ covered rs x) /\ forall x, writable_by f' x.
Proof.
  exists (fun _ => None), [mkR 0 0]. eexists. split; [vm_compute; reflexivity|]. split.
  - intros x (r & [<-|[]] & H). unfold inside in H. cbn in H. lia.
  - intros x. exists 1, 0, 0. split; [reflexivity|]. split; [lia|auto].
Qed.
Print Assumptions C30_empty_region_refuted.

(** A read/write region up to the end of the address space, which the filter's interface supports, is
    configured again and again. *)
Theorem C30_end_of_memory_refuted : forall turns f id,
  snd (filter_merge (fun _ => true) turns f id None (Some (mkR (2 ^ 31) (2 ^ 31))) 0 (2 ^ 31) [[mkR (2 ^ 31) (2 ^ 31)]]) = None.
Proof.
  induction turns as [|k IH]; intros f id; [reflexivity|].
  exact (IH (fun x => if x =? (id + 1) mod 256 then Some (2 ^ 31, u32 (2 ^ 31 + 2 ^ 31)) else f x) ((id + 1) mod 256)).
Qed.
Print Assumptions C30_end_of_memory_refuted.

(** C39: the version found is the last one of the list whose identifier is on flash, no version is
    reported only if none is there, and nothing is read past the end of the buffer. *)
Theorem C39_version : forall rfail m offset allowed heap, Forall (version_ok offset) allowed ->
  match determine_version rfail m offset allowed heap with
  | VFound v => exists before after, allowed = before ++ v :: after /\ on_flash m offset v /\
                  forall w, In w after -> ~ on_flash m offset w
  | VUnsupported => forall w, In w allowed -> ~ on_flash m offset w
  | VReadErr => exists a, rfail a = true
  | VOverflow => False
  end.
Proof.
  intros rfail m offset allowed heap OK. unfold determine_version.
  pose proof (determine_spec rfail m offset (rev allowed) None (map heap (seq 0 (longest allowed))) 0 (longest allowed)) as D.
  assert (D1: Forall (version_ok offset) (rev allowed)) by (now apply Forall_rev).
  assert (D2: forall v, In v (rev allowed) -> (length (v_id v) <= longest allowed)%nat)
    by (intros v Hv; apply longest_le; now apply in_rev).
  specialize (D D1 D2 ltac:(now rewrite map_length, seq_length) ltac:(lia) ltac:(discriminate)).
  destruct (determine rfail m offset (rev allowed) None (map heap (seq 0 (longest allowed))) 0); auto.
  - destruct D as (l1 & l2 & E & O & K). exists (rev l2), (rev l1). split; [|split; auto].
    + apply (f_equal (@rev fw_version)) in E. rewrite rev_involutive, rev_app_distr in E. cbn [rev] in E.
      rewrite <- app_assoc in E. exact E.
    + intros w Hw. apply K. now apply in_rev.
  - intros w Hw. apply D. now apply -> in_rev.
Qed.
Print Assumptions C39_version.

Definition ex_versions : list fw_version := [mkV [65; 66; 67] 16; mkV [65; 66] 16; mkV [65; 66; 67; 68] 16; mkV [90] 3].
Example C39_ex : Forall (version_ok 0) ex_versions /\
  determine_version (fun _ => false) (fun x => 49 + x) 0 ex_versions (fun _ => 0) = VFound (mkV [65; 66; 67; 68] 16) /\
  determine_version (fun _ => false) (fun x => if x <? 19 then 49 + x else 0) 0 ex_versions (fun _ => 0) = VFound (mkV [65; 66] 16) /\
  determine_version (fun _ => false) (fun x => 0) 0 ex_versions (fun _ => 0) = VUnsupported.
Proof.
  split; [|vm_compute; auto].
  repeat (constructor; [split; [intros c H; cbn in H; repeat destruct H as [<-|H]; try discriminate; contradiction|reflexivity]|]).
  constructor.
Qed.
