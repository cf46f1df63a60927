(** Flash operations succeed on a device without faults. *)
From Coq Require Import List NArith Lia Bool Arith ZifyBool ZifyNat ZifyN.
From Verif Require Import Base Flash_Base FlashUtil_Model FlashUtil_Proofs.
Import ListNotations.
Local Open Scope N_scope.

Section Total.
Variable rfail efail : N -> bool.
Variable wres : N -> option nat.
Hypothesis Hr : forall x, rfail x = false.
Hypothesis He : forall x, efail x = false.

Lemma erase_loop_total : forall fuel blk m a len, snd (erase_loop efail fuel blk m a len) = FuOk.
Proof.
  clear Hr rfail wres. induction fuel as [|f IH]; intros blk m a len; [reflexivity|]. cbn [erase_loop].
  destruct (len =? 0); [reflexivity|]. rewrite He. apply IH.
Qed.

Lemma erase_region_total : forall blk m a len, snd (erase_region efail blk m a len) = FuOk.
Proof. intros. apply erase_loop_total. Qed.

Lemma erase_and_verify_total : forall blk m a len, 0 < blk -> snd (erase_and_verify rfail efail blk m a len) = FuOk.
Proof.
  clear wres. intros blk m a len Hb. unfold erase_and_verify.
  pose proof (erase_region_spec efail blk m a len Hb) as E. pose proof (erase_region_total blk m a len) as T.
  destruct (erase_region efail blk m a len) as [m' r]. cbn [snd] in T. subst r. cbn [snd].
  destruct E as (_ & _ & _ & E). unfold blank_check, check_region. rewrite no_read_fault_check; auto.
  intros k Hk. apply (E eq_refl _ (a + N.of_nat k)); [lia|reflexivity].
Qed.

(** The device takes whole pages. *)
Variable page : N.
Hypothesis Hw : forall x, exists n, wres x = Some n /\ (N.to_nat page <= n)%nat.

Lemma copy_loop_total : forall fuel other m dest src len po verify,
  0 < page -> po < page -> bytes_img (source other m) -> (verify = true -> blank_on m dest len) ->
  (other = None -> src + len <= dest \/ dest + len <= src) ->
  snd (copy_loop rfail wres fuel other m dest src len po page verify) = FuOk.
Proof.
  clear efail He. induction fuel as [|f IH]; intros other m dest src len po verify Hp Hpo Hby Hv Hd; [reflexivity|].
  cbn [copy_loop]. destruct (N.eqb_spec len 0) as [->|Hl]; [reflexivity|].
  set (bl := if page - po <? len then page - po else len).
  assert (Hbl: 0 < bl <= len /\ bl <= page) by (unfold bl; destruct (N.ltb_spec (page - po) len); lia).
  rewrite Hr. set (data := img_read (source other m) src (N.to_nat bl)).
  assert (Ld: length data = N.to_nat bl) by (apply length_img_read).
  assert (Bd: bytes_ok data).
  { unfold data, bytes_ok, img_read. apply Forall_forall. intros b Hin.
    apply in_map_iff in Hin. destruct Hin as (k & <- & _). apply Hby. }
  unfold dev_write. destruct (Hw dest) as (n & -> & Hn). rewrite firstn_all2 by lia.
  rewrite Nat.min_r by lia. rewrite Ld, Nat.eqb_refl.
  assert (OUT: forall x, ~ (dest <= x < dest + bl) -> nor_write m dest data x = m x).
  { intros x Hx. apply nor_write_out. lia. }
  assert (R: (if verify then check_region rfail (nor_write m dest data) dest (fun i => nth i data 0) (N.to_nat bl) else FuOk) = FuOk).
  { destruct verify; [|reflexivity]. unfold check_region. apply no_read_fault_check; auto.
    intros k Hk. rewrite nor_write_blank; auto; [|lia|apply (Hv eq_refl); lia]. rewrite Nat.add_0_l. f_equal. lia. }
  rewrite R. apply IH; auto; [|intros V y Hy; rewrite OUT by lia; apply (Hv V); lia|intros Q; specialize (Hd Q); lia].
  destruct other as [o|]; [exact Hby|]. cbn [source] in *. now apply bytes_img_write.
Qed.

Lemma copy_region_total : forall other m dest src len erase blk verify,
  0 < page -> page <= MAX_COPY_BLOCK -> 0 < blk -> bytes_img m -> bytes_img (source other m) ->
  (erase = false -> verify = true -> blank_on m dest (N.of_nat len)) ->
  (other = None -> check_copy_region dest src len blk = FuOk) ->
  dest + N.of_nat len <= 2 ^ 32 -> src + N.of_nat len <= 2 ^ 32 ->
  snd (copy_region rfail efail wres other m dest src len erase blk blk page verify) = FuOk.
Proof.
  intros other m dest src len erase blk verify Hp Hm Hb By Bs Hv Hc L1 L2. unfold copy_region.
  destruct len as [|l]; [reflexivity|]. set (len := S l) in *.
  assert (C: match other with None => check_copy_region dest src len blk | Some _ => FuOk end = FuOk).
  { destruct other; auto. }
  rewrite C.
  assert (D: other = None -> src + N.of_nat len <= dest \/ dest + N.of_nat len <= src).
  { intros Q. specialize (Hc Q). unfold check_copy_region in Hc.
    destruct (region_base src blk =? region_base dest blk); [discriminate|].
    destruct (N.ltb_spec dest src) as [L|L].
    - rewrite N.mod_small in Hc by (unfold len in *; lia). destruct (N.leb_spec src (dest + N.of_nat len - 1)); [discriminate|]. unfold len in *. lia.
    - rewrite N.mod_small in Hc by (unfold len in *; lia). destruct (N.leb_spec dest (src + N.of_nat len - 1)); [discriminate|]. unfold len in *. lia. }
  destruct (N.ltb_spec MAX_COPY_BLOCK page) as [X|_]; [lia|].
  destruct erase.
  - pose proof (erase_and_verify_total blk m dest len Hb) as T. pose proof (erase_region_spec efail blk m dest len Hb) as E.
    pose proof (bytes_img_erase_region efail blk m dest len Hb By) as BE.
    unfold erase_and_verify in *. pose proof (erase_region_total blk m dest len) as T'.
    destruct (erase_region efail blk m dest len) as [m1 r1]. cbn [snd fst] in *. subst r1. cbn [snd] in T. rewrite T.
    destruct E as (_ & _ & _ & E). specialize (E eq_refl). unfold copy_to_blank. apply copy_loop_total; auto.
    + unfold region_offset. apply N.mod_lt. lia.
    + destruct other; [exact Bs|exact BE].
    + intros _ x Hx. now apply (E x x).
  - unfold copy_to_blank. apply copy_loop_total; auto. unfold region_offset. apply N.mod_lt. lia.
Qed.

End Total.

Lemma hash_stream_total : forall rf fuel m a n, (forall x, rf x = false) -> (n <= fuel)%nat ->
  hash_stream rf fuel m a n = Some (img_read m a n).
Proof.
  intros rf fuel m a n Hr Hf.
  assert (T: forall f m a n, exists d, hash_stream rf f m a n = Some d).
  { induction f as [|f IH]; intros m' a' n'; [eexists; reflexivity|]. cbn [hash_stream]. destruct n'; [eauto|]. rewrite Hr.
    match goal with |- context [hash_stream rf f ?x ?y ?z] => destruct (IH x y z) as (d & ->) end. eauto. }
  destruct (T fuel m a n) as (d & E). rewrite E. f_equal. now apply hash_stream_spec in E.
Qed.
