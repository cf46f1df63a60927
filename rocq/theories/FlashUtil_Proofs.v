(** Proofs about the flash utilities. *)
From Coq Require Import List NArith Lia Bool Arith ZifyBool ZifyNat ZifyN.
From Verif Require Import Base Flash_Base FlashUtil_Model.
Import ListNotations.
Local Open Scope N_scope.

Lemma bytes_match_spec : forall e block i,
  bytes_match e i block = true <-> (forall k, (k < length block)%nat -> e (i + k)%nat = nth k block 0).
Proof.
  intros e. induction block as [|b r IH]; intros i; cbn [bytes_match length].
  - split; auto. intros _ k Hk. lia.
  - destruct (N.eqb_spec (e i) b) as [E|E].
    + rewrite IH. split.
      * intros H [|k] Hk; [now rewrite Nat.add_0_r|]. rewrite <- Nat.add_succ_comm. cbn [nth]. apply H. lia.
      * intros H k Hk. rewrite Nat.add_succ_comm. rewrite (H (S k)) by lia. reflexivity.
    + split; [discriminate|]. intros H. specialize (H 0%nat). rewrite Nat.add_0_r in H. cbn in H.
      exfalso. apply E, H. lia.
Qed.

Lemma bytes_match_false : forall e block i,
  bytes_match e i block = false -> exists k, (k < length block)%nat /\ e (i + k)%nat <> nth k block 0.
Proof.
  intros e. induction block as [|b r IH]; intros i; cbn [bytes_match length]; [discriminate|].
  destruct (N.eqb_spec (e i) b) as [E|E]; intros H.
  - destruct (IH _ H) as (k & Hk & N). exists (S k). split; [lia|].
    rewrite <- Nat.add_succ_comm. exact N.
  - exists 0%nat. split; [lia|]. now rewrite Nat.add_0_r.
Qed.

Section Util.
Variable rfail : N -> bool.
Variable efail : N -> bool.
Variable wres : N -> option nat.

Lemma check_loop_spec : forall fuel m a e i len, (len <= fuel)%nat ->
  let r := check_loop rfail fuel m a e i len in
  (r = FuOk -> forall k, (k < len)%nat -> m (a + N.of_nat k) = e (i + k)%nat) /\
  (r = FuMismatch -> exists k, (k < len)%nat /\ m (a + N.of_nat k) <> e (i + k)%nat) /\
  (r = FuOk \/ r = FuMismatch \/ r = FuReadErr) /\
  (r = FuReadErr -> exists x, a <= x < a + N.of_nat len /\ rfail x = true).
Proof. clear efail wres.
  induction fuel as [|f IH]; intros m a e i len Hf.
  - replace len with 0%nat by lia. cbn. repeat split; auto; try discriminate. intros. lia.
  - cbn [check_loop]. destruct len as [|l]; [cbn; repeat split; auto; try discriminate; intros; lia|].
    set (n := Nat.min (S l) VERIFICATION_BLOCK).
    assert (Hn: (1 <= n <= S l)%nat) by (unfold n, VERIFICATION_BLOCK; lia).
    destruct (rfail a) eqn:RF.
    { cbn zeta. repeat split; auto; try discriminate. intros _. exists a. split; [lia|auto]. }
    destruct (bytes_match e i (img_read m a n)) eqn:BM.
    + pose proof (proj1 (bytes_match_spec _ _ _) BM) as BM'. rewrite length_img_read in BM'.
      specialize (IH m (a + N.of_nat n) e (i + n)%nat (S l - n)%nat ltac:(lia)). cbn zeta in *.
      destruct IH as (I1 & I2 & I3 & I4). repeat split; auto.
      * intros H k Hk. destruct (Nat.lt_ge_cases k n).
        -- specialize (BM' k H0). rewrite nth_img_read in BM' by auto. auto.
        -- specialize (I1 H (k - n)%nat ltac:(lia)).
           replace (a + N.of_nat n + N.of_nat (k - n)) with (a + N.of_nat k) in I1 by lia.
           now replace (i + n + (k - n))%nat with (i + k)%nat in I1 by lia.
      * intros H. destruct (I2 H) as (k & Hk & E). exists (n + k)%nat. split; [lia|].
        replace (a + N.of_nat (n + k)) with (a + N.of_nat n + N.of_nat k) by lia.
        now rewrite Nat.add_assoc.
      * intros H. destruct (I4 H) as (x & Hx & E). exists x. split; [lia|auto].
    + cbn zeta. repeat split; auto; try discriminate. intros _.
      pose proof (bytes_match_false _ _ _ BM) as X. rewrite length_img_read in X.
      destruct X as (k & Hk & E). exists k. split; [lia|]. rewrite nth_img_read in E by auto. auto.
Qed.

Lemma no_read_fault_check : forall m a e i len fuel, (len <= fuel)%nat ->
  (forall x, rfail x = false) -> (forall k, (k < len)%nat -> m (a + N.of_nat k) = e (i + k)%nat) ->
  check_loop rfail fuel m a e i len = FuOk.
Proof. clear efail wres.
  intros m a e i len fuel Hf NF H.
  pose proof (check_loop_spec fuel m a e i len Hf) as C. cbn zeta in C.
  destruct C as (_ & H2 & H3 & H4). destruct H3 as [R|[R|R]]; [exact R| |].
  - destruct (H2 R) as (k & Hk & E). exfalso. apply E. auto.
  - destruct (H4 R) as (x & _ & E). rewrite NF in E. discriminate.
Qed.

(** Erasing. *)
Lemma in_block : forall x a blk, 0 < blk -> inb x (region_base a blk) blk = true <-> x / blk = a / blk.
Proof. clear rfail efail wres.
  intros x a blk Hb. rewrite inb_spec. unfold region_base.
  pose proof (N.div_mod a blk ltac:(lia)). pose proof (N.mod_lt a blk ltac:(lia)).
  pose proof (N.div_mod x blk ltac:(lia)). pose proof (N.mod_lt x blk ltac:(lia)).
  set (qa := a / blk) in *. set (qx := x / blk) in *.
  set (ra := a mod blk) in *. set (rx := x mod blk) in *. clearbody qa qx ra rx.
  replace (a - ra) with (blk * qa) by (rewrite H; lia).
  split; intros E.
  - assert (qx < qa + 1) by nia. assert (qa < qx + 1) by nia. lia.
  - subst qx. nia.
Qed.

Lemma region_base_eq : forall a blk, 0 < blk -> region_base a blk = blk * (a / blk).
Proof. clear rfail efail wres.
  intros a blk Hb. unfold region_base. pose proof (N.div_mod a blk ltac:(lia)).
  set (qa := a / blk) in *. set (ra := a mod blk) in *. clearbody qa ra. rewrite H. lia.
Qed.

Lemma next_block : forall a blk y, 0 < blk -> a <= y -> y < a + (blk - region_offset a blk) -> y / blk = a / blk.
Proof. clear rfail efail wres.
  intros a blk y Hb Hy Hy2. apply in_block; auto. apply inb_spec. unfold region_base, region_offset in *.
  pose proof (N.mod_lt a blk ltac:(lia)). pose proof (N.mod_le a blk ltac:(lia)). lia.
Qed.

Lemma erase_loop_spec : forall fuel blk m a len, 0 < blk -> (N.to_nat len < fuel)%nat ->
  let '(m', r) := erase_loop efail fuel blk m a len in
  (forall x, (forall y, a <= y < a + len -> y / blk <> x / blk) -> m' x = m x) /\
  (forall x, m' x = m x \/ m' x = 255) /\
  (r = FuOk \/ r = FuEraseErr) /\
  (r = FuOk -> forall x y, a <= y < a + len -> y / blk = x / blk -> m' x = 255).
Proof. clear rfail wres.
  induction fuel as [|f IH]; intros blk m a len Hb Hf; [lia|].
  cbn [erase_loop]. destruct (N.eqb_spec len 0) as [->|Hl].
  { repeat split; auto. intros. lia. }
  destruct (efail a). { repeat split; auto. discriminate. }
  set (er := blk - region_offset a blk).
  assert (Her: 0 < er). { unfold er, region_offset. pose proof (N.mod_lt a blk ltac:(lia)). lia. }
  set (len' := len - (if er <? len then er else len)).
  assert (Hlen': len' = len - er) by (unfold len'; destruct (N.ltb_spec er len); lia).
  specialize (IH blk (nor_erase m (region_base a blk) blk) (a + er) len' Hb ltac:(lia)).
  destruct (erase_loop efail f blk (nor_erase m (region_base a blk) blk) (a + er) len') as [m' r].
  destruct IH as (I1 & I2 & I3 & I4).
  assert (EB: forall x, x / blk = a / blk -> nor_erase m (region_base a blk) blk x = 255).
  { intros x E. unfold nor_erase. apply in_block in E; auto. now rewrite E. }
  assert (EO: forall x, x / blk <> a / blk -> nor_erase m (region_base a blk) blk x = m x).
  { intros x E. unfold nor_erase. destruct (inb x (region_base a blk) blk) eqn:Q; auto.
    apply in_block in Q; auto. contradiction. }
  split; [|split; [|split; [exact I3|]]].
  - intros x Hx. rewrite I1.
    + apply EO. intro E. apply (Hx a); [lia|auto].
    + intros y Hy. apply Hx. lia.
  - intros x. destruct (I2 x) as [E|E]; auto. rewrite E.
    destruct (N.eq_dec (x / blk) (a / blk)); [right; auto|left; auto].
  - intros Hr x y Hy Hxy. destruct (N.lt_ge_cases y (a + er)).
    + assert (E: x / blk = a / blk) by (rewrite <- Hxy; apply next_block; auto; lia).
      destruct (I2 x) as [Q|Q]; [rewrite Q; auto|auto].
    + eapply I4; eauto. lia.
Qed.

Lemma erase_region_spec : forall blk m a len, 0 < blk ->
  let '(m', r) := erase_region efail blk m a len in
  (forall x, (forall y, a <= y < a + N.of_nat len -> y / blk <> x / blk) -> m' x = m x) /\
  (forall x, m' x = m x \/ m' x = 255) /\
  (r = FuOk \/ r = FuEraseErr) /\
  (r = FuOk -> forall x y, a <= y < a + N.of_nat len -> y / blk = x / blk -> m' x = 255).
Proof. clear rfail wres. intros. unfold erase_region. apply erase_loop_spec; auto. lia. Qed.

(** Writing. *)
Lemma dev_write_spec : forall m a d,
  let '(m', r) := dev_write wres m a d in
  (forall x, ~ (a <= x < a + N.of_nat (length d)) -> m' x = m x) /\
  (r = Some (length d) -> m' = nor_write m a d).
Proof. clear rfail efail.
  intros. unfold dev_write. destruct (wres a) as [n|].
  - split.
    + intros x Hx. apply nor_write_out. rewrite firstn_length. lia.
    + intros E. injection E as E. rewrite firstn_all2 by lia. reflexivity.
  - split; [auto|discriminate].
Qed.

Lemma nth_img : forall m a n k, (k < n)%nat -> nth k (img_read m a n) 0 = m (a + N.of_nat k).
Proof. clear rfail efail wres. intros. now apply nth_img_read. Qed.

Lemma copy_loop_spec : forall fuel other m dest src len po page verify,
  0 < page -> po < page -> (N.to_nat len < fuel)%nat ->
  bytes_img (source other m) ->
  (other = None -> src + len <= dest \/ dest + len <= src) ->
  let '(m', r) := copy_loop rfail wres fuel other m dest src len po page verify in
  (forall x, ~ (dest <= x < dest + len) -> m' x = m x) /\
  (r = FuOk -> verify = true \/ blank_on m dest len ->
     forall x, x < len -> m' (dest + x) = source other m (src + x)).
Proof. clear efail.
  induction fuel as [|f IH]; intros other m dest src len po page verify Hp Hpo Hf Hby Hdis; [lia|].
  cbn [copy_loop]. destruct (N.eqb_spec len 0) as [->|Hl]; [split; auto; intros; lia|].
  set (bl := if page - po <? len then page - po else len).
  assert (Hbl: 0 < bl <= len) by (unfold bl; destruct (N.ltb_spec (page - po) len); lia).
  destruct (rfail src); [split; auto; discriminate|].
  set (data := img_read (source other m) src (N.to_nat bl)).
  assert (Ld: length data = N.to_nat bl) by (apply length_img_read).
  pose proof (dev_write_spec m dest data) as DW.
  destruct (dev_write wres m dest data) as [m1 wr]. destruct DW as (D1 & D2). rewrite Ld in D1, D2.
  assert (OUT1: forall x, ~ (dest <= x < dest + len) -> m1 x = m x) by (intros; apply D1; lia).
  destruct wr as [n|]; [|split; [auto|discriminate]].
  destruct (Nat.eqb_spec n (N.to_nat bl)) as [->|]; [|split; [auto|discriminate]].
  specialize (D2 eq_refl).
  set (r1 := if verify then check_region rfail m1 dest (fun i => nth i data 0) (N.to_nat bl) else FuOk).
  assert (STEP: r1 = FuOk -> verify = true \/ blank_on m dest len ->
     forall x, x < bl -> m1 (dest + x) = source other m (src + x)).
  { intros R V x Hx.
    assert (G: nth (N.to_nat x) data 0 = source other m (src + x)).
    { unfold data. rewrite nth_img by lia. f_equal. lia. }
    unfold r1 in R. destruct verify.
    - destruct (check_loop_spec (N.to_nat bl) m1 dest (fun i => nth i data 0) 0 (N.to_nat bl) (le_n _)) as (C & _).
      specialize (C R (N.to_nat x) ltac:(lia)).
      replace (dest + N.of_nat (N.to_nat x)) with (dest + x) in C by lia. rewrite C.
      rewrite Nat.add_0_l. exact G.
    - destruct V as [V|V]; [discriminate|]. rewrite D2. rewrite nor_write_blank.
      + replace (N.to_nat (dest + x - dest)) with (N.to_nat x) by lia. exact G.
      + unfold data, bytes_ok, img_read. apply Forall_forall. intros b Hin.
        apply in_map_iff in Hin. destruct Hin as (k & <- & _). apply Hby.
      + lia.
      + apply V. lia. }
  destruct r1 eqn:R1; try (split; [auto|discriminate]).
  assert (SRC: forall x, x < len -> source other m1 (src + x) = source other m (src + x)).
  { intros x Hx. destruct other as [s|]; [reflexivity|]. cbn [source]. apply D1.
    specialize (Hdis eq_refl). lia. }
  specialize (IH other m1 (dest + bl) (src + bl) (len - bl) 0 page verify Hp Hp ltac:(lia)).
  assert (Hby1: bytes_img (source other m1)).
  { destruct other as [s|]; [exact Hby|]. cbn [source] in *. rewrite D2. now apply bytes_img_write. }
  specialize (IH Hby1 ltac:(intros Q; specialize (Hdis Q); lia)).
  destruct (copy_loop rfail wres f other m1 (dest + bl) (src + bl) (len - bl) 0 page verify) as [m' r].
  destruct IH as (I1 & I2). split.
  - intros x Hx. rewrite I1 by lia. auto.
  - intros Hr V x Hx. destruct (N.lt_ge_cases x bl) as [L|L].
    + rewrite I1 by lia. apply STEP; auto.
    + assert (V': verify = true \/ blank_on m1 (dest + bl) (len - bl)).
      { destruct V as [V|V]; [left; auto|right]. intros y Hy. rewrite D1 by lia. apply V. lia. }
      specialize (I2 Hr V' (x - bl) ltac:(lia)).
      replace (dest + bl + (x - bl)) with (dest + x) in I2 by lia.
      replace (src + bl + (x - bl)) with (src + x) in I2 by lia.
      rewrite I2. apply SRC. auto.
Qed.

Lemma copy_to_blank_spec : forall other m dest src len page verify,
  0 < page -> bytes_img (source other m) ->
  (other = None -> src + N.of_nat len <= dest \/ dest + N.of_nat len <= src) ->
  let '(m', r) := copy_to_blank rfail wres other m dest src len page verify in
  (forall x, ~ (dest <= x < dest + N.of_nat len) -> m' x = m x) /\
  (r = FuOk -> verify = true \/ blank_on m dest (N.of_nat len) ->
     forall x, x < N.of_nat len -> m' (dest + x) = source other m (src + x)).
Proof. clear efail.
  intros. unfold copy_to_blank. apply copy_loop_spec; auto; try lia.
  unfold region_offset. apply N.mod_lt. lia.
Qed.

(** The copy check keeps the erased blocks away from the source. *)
Lemma check_copy_sound : forall dest src len blk, 0 < blk -> (0 < len)%nat ->
  dest + N.of_nat len <= 2 ^ 32 -> src + N.of_nat len <= 2 ^ 32 ->
  check_copy_region dest src len blk = FuOk ->
  forall x y, src <= x < src + N.of_nat len -> dest <= y < dest + N.of_nat len -> x / blk <> y / blk.
Proof. clear rfail efail wres.
  intros dest src len blk Hb Hlen Hd Hs H x y Hx Hy E.
  assert (RB: forall a b, region_base a blk = region_base b blk <-> a / blk = b / blk).
  { intros a b. rewrite !region_base_eq by auto. split; intros Q; [|now rewrite Q].
    apply N.mul_cancel_l in Q; auto. lia. }
  unfold check_copy_region in H. cbn zeta in H.
  destruct (N.eqb_spec (region_base src blk) (region_base dest blk)) as [|N1]; [discriminate|].
  rewrite RB in N1.
  assert (M: forall a b, a <= b -> a / blk <= b / blk) by (intros; apply N.div_le_mono; lia).
  destruct (N.ltb_spec dest src) as [L|L].
  - rewrite N.mod_small in H by lia.
    destruct (N.leb_spec src (dest + N.of_nat len - 1)); [discriminate|].
    destruct (N.eqb_spec (region_base (dest + N.of_nat len - 1) blk) (region_base src blk)) as [|N2]; [discriminate|].
    rewrite RB in N2.
    pose proof (M (dest + N.of_nat len - 1) src ltac:(lia)).
    pose proof (M y (dest + N.of_nat len - 1) ltac:(lia)).
    pose proof (M src x ltac:(lia)). lia.
  - rewrite N.mod_small in H by lia.
    destruct (N.leb_spec dest (src + N.of_nat len - 1)); [discriminate|].
    destruct (N.eqb_spec (region_base (src + N.of_nat len - 1) blk) (region_base dest blk)) as [|N2]; [discriminate|].
    rewrite RB in N2.
    pose proof (M (src + N.of_nat len - 1) dest ltac:(lia)).
    pose proof (M x (src + N.of_nat len - 1) ltac:(lia)).
    pose proof (M dest y ltac:(lia)). lia.
Qed.

Lemma bytes_img_erase_region : forall blk m a len, 0 < blk -> bytes_img m ->
  bytes_img (fst (erase_region efail blk m a len)).
Proof. clear rfail wres.
  intros blk m a len Hb H x. pose proof (erase_region_spec blk m a len Hb) as E.
  destruct (erase_region efail blk m a len) as [m' r]. destruct E as (_ & E & _).
  cbn [fst]. destruct (E x) as [->| ->]; [apply H|reflexivity].
Qed.

Theorem copy_region_spec : forall other m dest src len erase eblk page verify,
  0 < page -> 0 < eblk -> (0 < len)%nat ->
  bytes_img m -> bytes_img (source other m) ->
  dest + N.of_nat len <= 2 ^ 32 -> src + N.of_nat len <= 2 ^ 32 ->
  (erase = true \/ verify = true \/ blank_on m dest (N.of_nat len)) ->
  let '(m', r) := copy_region rfail efail wres other m dest src len erase eblk eblk page verify in
  r = FuOk ->
  (forall x, x < N.of_nat len -> m' (dest + x) = source other m (src + x)) /\
  (other = None -> forall x, x < N.of_nat len -> m' (src + x) = m (src + x)) /\
  (forall x, (forall y, dest <= y < dest + N.of_nat len -> y / eblk <> x / eblk) -> m' x = m x) /\
  (erase = false -> forall x, ~ (dest <= x < dest + N.of_nat len) -> m' x = m x).
Proof.
  intros other m dest src len erase eblk page verify Hp He Hlen Hbm Hbs Hd Hs Hok.
  unfold copy_region. destruct len as [|l]; [lia|]. set (len := S l) in *.
  set (chk := match other with None => check_copy_region dest src len eblk | Some _ => FuOk end).
  assert (CK: chk = FuOk -> other = None -> forall x y, src <= x < src + N.of_nat len ->
     dest <= y < dest + N.of_nat len -> x / eblk <> y / eblk).
  { intros C ->. unfold chk in C. now apply check_copy_sound. }
  destruct chk eqn:EC; try discriminate.
  assert (DIS: other = None -> src + N.of_nat len <= dest \/ dest + N.of_nat len <= src).
  { intros Q. specialize (CK eq_refl Q). pose proof (CK src).
    destruct (N.lt_ge_cases dest (src + N.of_nat len)); [|left; lia].
    destruct (N.lt_ge_cases src (dest + N.of_nat len)); [|right; lia]. exfalso.
    destruct (N.lt_ge_cases src dest).
    - apply (CK dest dest); auto; lia.
    - apply (CK src src); auto; lia. }
  assert (G: forall m1, 
     (forall x, (forall y, dest <= y < dest + N.of_nat len -> y / eblk <> x / eblk) -> m1 x = m x) ->
     (erase = false -> m1 = m) -> bytes_img m1 -> 
     (verify = true \/ blank_on m1 dest (N.of_nat len)) ->
     let '(m', r) := copy_to_blank rfail wres other m1 dest src len page verify in
      r = FuOk ->
      (forall x, x < N.of_nat len -> m' (dest + x) = source other m (src + x)) /\
      (other = None -> forall x, x < N.of_nat len -> m' (src + x) = m (src + x)) /\
      (forall x, (forall y, dest <= y < dest + N.of_nat len -> y / eblk <> x / eblk) -> m' x = m x) /\
      (erase = false -> forall x, ~ (dest <= x < dest + N.of_nat len) -> m' x = m x)).
  { intros m1 M1 M2 M3 M4.
    assert (SRC: forall x, x < N.of_nat len -> source other m1 (src + x) = source other m (src + x)).
    { intros x Hx. destruct other as [s|]; [reflexivity|]. cbn [source]. apply M1.
      intros y Hy E. apply (CK eq_refl eq_refl (src + x) y); auto. lia. }
    assert (B1: bytes_img (source other m1)) by (destruct other; auto).
    pose proof (copy_to_blank_spec other m1 dest src len page verify Hp B1 DIS) as CB.
    destruct (copy_to_blank rfail wres other m1 dest src len page verify) as [m' r].
    destruct CB as (C1 & C2). intros Hr. repeat split.
    - intros x Hx. rewrite C2 by auto. auto.
    - intros Q x Hx. rewrite C1 by (specialize (DIS Q); lia). specialize (SRC x Hx). rewrite Q in SRC. exact SRC.
    - intros x Hx. rewrite C1; [apply M1; auto|]. intro D. apply (Hx x); auto.
    - intros Q x Hx. rewrite C1 by auto. now rewrite M2. }
  destruct erase.
  - unfold erase_and_verify.
    pose proof (erase_region_spec eblk m dest len He) as ER.
    pose proof (bytes_img_erase_region eblk m dest len He Hbm) as EB.
    destruct (erase_region efail eblk m dest len) as [m1 r1]. cbn [fst] in EB.
    destruct ER as (E1 & E2 & E3 & E4).
    destruct r1; try discriminate.
    destruct (blank_check rfail m1 dest len); try discriminate.
    destruct (MAX_COPY_BLOCK <? page); [discriminate|].
    apply G; auto; [discriminate|]. right. intros x Hx. apply (E4 eq_refl x x); auto.
  - destruct (MAX_COPY_BLOCK <? page); [discriminate|].
    apply G; auto. destruct Hok as [|[|]]; auto. discriminate.
Qed.

Lemma verify_copy_loop_spec : forall fuel m1 a1 m2 a2 len, (len <= fuel)%nat ->
  let r := verify_copy_loop rfail fuel m1 a1 m2 a2 len in
  (r = FuOk -> forall k, (k < len)%nat -> m1 (a1 + N.of_nat k) = m2 (a2 + N.of_nat k)) /\
  ((forall x, rfail x = false) ->
   (forall k, (k < len)%nat -> m1 (a1 + N.of_nat k) = m2 (a2 + N.of_nat k)) -> r = FuOk).
Proof. clear efail wres.
  induction fuel as [|f IH]; intros m1 a1 m2 a2 len Hf.
  - replace len with 0%nat by lia. cbn. split; auto. intros. lia.
  - cbn [verify_copy_loop]. destruct len as [|l]; [cbn; split; auto; intros; lia|].
    set (n := Nat.min (S l) VERIFICATION_BLOCK).
    assert (Hn: (1 <= n <= S l)%nat) by (unfold n, VERIFICATION_BLOCK; lia).
    destruct (rfail a1) eqn:RF.
    { cbn zeta. split; [discriminate|]. intros NF. rewrite NF in RF. discriminate. }
    set (e := fun i => nth i (img_read m1 a1 n) 0). unfold check_region.
    destruct (check_loop_spec n m2 a2 e 0 n (le_n _)) as (C1 & C2 & C3 & _).
    specialize (IH m1 (a1 + N.of_nat n) m2 (a2 + N.of_nat n) (S l - n)%nat ltac:(lia)). cbn zeta in *.
    destruct IH as (I1 & I2).
    assert (EK: forall k, (k < n)%nat -> e k = m1 (a1 + N.of_nat k)) by (intros; now apply nth_img).
    destruct (check_loop rfail n m2 a2 e 0 n) eqn:CR; try (intuition discriminate).
    + split.
      * intros H k Hk. destruct (Nat.lt_ge_cases k n).
        -- rewrite (C1 eq_refl k) by auto. rewrite Nat.add_0_l, EK by auto. reflexivity.
        -- specialize (I1 H (k - n)%nat ltac:(lia)).
           replace (a1 + N.of_nat n + N.of_nat (k - n)) with (a1 + N.of_nat k) in I1 by lia.
           now replace (a2 + N.of_nat n + N.of_nat (k - n)) with (a2 + N.of_nat k) in I1 by lia.
      * intros NF H. apply I2; auto. intros k Hk.
        replace (a1 + N.of_nat n + N.of_nat k) with (a1 + N.of_nat (n + k)) by lia.
        replace (a2 + N.of_nat n + N.of_nat k) with (a2 + N.of_nat (n + k)) by lia. apply H. lia.
    + split; [discriminate|]. intros NF H. exfalso. destruct (C2 eq_refl) as (k & Hk & E).
      apply E. rewrite Nat.add_0_l, EK by auto. symmetry. apply H. lia.
    + split; [discriminate|]. intros NF H.
      assert (X: check_loop rfail n m2 a2 e 0 n = FuOk).
      { apply no_read_fault_check; auto. intros k Hk. rewrite Nat.add_0_l, EK by auto. symmetry. apply H. lia. }
      congruence.
Qed.

Lemma hash_stream_spec : forall fuel m a n d, (n <= fuel)%nat ->
  hash_stream rfail fuel m a n = Some d -> d = img_read m a n.
Proof. clear efail wres.
  induction fuel as [|f IH]; intros m a n d Hf H.
  - replace n with 0%nat by lia. cbn in H. injection H as <-. reflexivity.
  - cbn [hash_stream] in H. destruct n as [|l]; [injection H as <-; reflexivity|].
    set (k := Nat.min (S l) VERIFICATION_BLOCK) in *.
    assert (Hk: (1 <= k <= S l)%nat) by (unfold k, VERIFICATION_BLOCK; lia).
    destruct (rfail a); [discriminate|].
    destruct (hash_stream rfail f m (a + N.of_nat k) (S l - k)) as [r|] eqn:E; [|discriminate].
    apply IH in E; [|lia]. subst r.
    assert (Q: d = img_read m a k ++ img_read m (a + N.of_nat k) (S l - k)) by congruence.
    rewrite Q, <- img_read_app. f_equal. lia.
Qed.

Lemma hash_regions_spec : forall regions m offset d, hash_regions rfail m offset regions = Some d ->
  d = concat (map (fun r => img_read m (fst r + offset) (snd r)) regions).
Proof. clear efail wres.
  induction regions as [|[a len] r IH]; intros m offset d H; cbn [hash_regions] in H.
  - now injection H as <-.
  - destruct (hash_stream rfail len m (a + offset) len) as [d1|] eqn:E1; [|discriminate].
    destruct (hash_regions rfail m offset r) as [d2|] eqn:E2; [|discriminate].
    injection H as <-. apply hash_stream_spec in E1; [|lia]. apply IH in E2. subst. reflexivity.
Qed.

Lemma hash_regions_total : forall regions m offset, (forall x, rfail x = false) ->
  exists d, hash_regions rfail m offset regions = Some d.
Proof. clear efail wres.
  intros regions m offset NF.
  assert (S: forall fuel a n, exists d, hash_stream rfail fuel m a n = Some d).
  { induction fuel; intros a n; cbn [hash_stream]; [eauto|]. destruct n; [eauto|]. rewrite NF.
    edestruct IHfuel as (d & ->). eauto. }
  induction regions as [|[a len] r IH]; cbn [hash_regions]; [eauto|].
  destruct (S len (a + offset) len) as (d & ->). destruct IH as (d2 & ->). eauto.
Qed.

Lemma program_and_verify_spec : forall blk m a data, (match blk with Some b => 0 < b | None => True end) ->
  let '(m', r) := program_and_verify rfail efail wres blk m a data in
  (r = FuOk -> forall i, (i < length data)%nat -> m' (a + N.of_nat i) = nth i data 0) /\
  (forall x, (match blk with
              | Some b => forall y, a <= y < a + N.of_nat (length data) -> y / b <> x / b
              | None => ~ (a <= x < a + N.of_nat (length data)) end) -> m' x = m x).
Proof.
  intros blk m a data Hb. unfold program_and_verify, program_data.
  assert (X: let '(m1, r) := match blk with Some b => erase_region efail b m a (length data) | None => (m, FuOk) end in
    forall x, (match blk with
              | Some b => forall y, a <= y < a + N.of_nat (length data) -> y / b <> x / b
              | None => ~ (a <= x < a + N.of_nat (length data)) end) -> m1 x = m x).
  { destruct blk as [b|]; [|auto]. pose proof (erase_region_spec b m a (length data) Hb) as E.
    destruct (erase_region efail b m a (length data)) as [m1 r]. apply E. }
  destruct (match blk with Some b => erase_region efail b m a (length data) | None => (m, FuOk) end) as [m1 r].
  destruct r; try (split; [discriminate|exact X]).
  pose proof (dev_write_spec m1 a data) as DW. destruct (dev_write wres m1 a data) as [m2 w].
  destruct DW as (D1 & D2).
  assert (OUT: forall x, (match blk with
              | Some b => forall y, a <= y < a + N.of_nat (length data) -> y / b <> x / b
              | None => ~ (a <= x < a + N.of_nat (length data)) end) -> m2 x = m x).
  { intros x Hx. rewrite D1; auto. destruct blk; auto. intro Q. apply (Hx x); auto. }
  destruct w as [n|]; [|split; [discriminate|exact OUT]].
  destruct (n =? length data)%nat; [|split; [discriminate|exact OUT]].
  split; [|exact OUT]. intros H i Hi. unfold verify_data, check_region in H.
  destruct (check_loop_spec (length data) m2 a (fun i => nth i data 0) 0 (length data) (le_n _)) as (C & _).
  rewrite (C H i Hi). reflexivity.
Qed.

End Util.
