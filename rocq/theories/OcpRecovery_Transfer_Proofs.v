(** Images pushed to a region arrive, and regions are read back as they are. *)
From Coq Require Import List NArith ZArith Lia Bool Arith ZifyBool ZifyNat ZifyN.
From Verif Require Import Base Flash_Base FlashUpdater_Model OcpRecovery_Model OcpRecovery_Spec
  OcpRecovery_Bus_Proofs OcpRecovery_Dev_Proofs OcpRecovery_History_Proofs.
Import ListNotations.

(** The bytes [img] have been stored at the start of the region, which held [m0]. *)
Definition stored (c : config) (i : nat) (r : region) (m0 : list N) (d : dev) (img : list N) : Prop :=
  match r_back r with
  | Ram => mem (st d) i = img ++ skipn (length img) m0
  | Nor base =>
    img_read (flash (st d)) base (length img) = img /\
    (img = [] \/
     (let e := erase_at (st d) i in
      (base + N.of_nat (length img) <= e <= base + r_len r /\ e mod sector c = 0)%N /\
      blank_on (flash (st d)) (base + N.of_nat (length img)) (e - (base + N.of_nat (length img)))))
  | Log => False
  end.

Lemma regions_some : forall c i r, nth_error (regions c) i = Some r -> cms c = Some (regions c).
Proof. intros c i r H. unfold regions in *. destruct (cms c); auto. destruct i; discriminate. Qed.

Lemma splice_end : forall (img p : list N) m, length img + length p <= length m ->
  splice (img ++ skipn (length img) m) (length img) p = (img ++ p) ++ skipn (length (img ++ p)) m.
Proof.
  intros. unfold splice. rewrite firstn_app, firstn_all, Nat.sub_diag. cbn [firstn]. rewrite app_nil_r, app_length, <- app_assoc.
  f_equal. f_equal. rewrite skipn_app, skipn_all2 by lia. cbn [app]. rewrite skipn_skipn. f_equal. lia.
Qed.

Lemma read_extend : forall m m' base img p, bytes_ok p ->
  img_read m base (length img) = img ->
  (forall x, (base <= x < base + N.of_nat (length img))%N -> m' x = m x) ->
  (forall k, k < length p -> m' (base + N.of_nat (length img) + N.of_nat k)%N = nth k p 0%N) ->
  img_read m' base (length (img ++ p)) = img ++ p.
Proof.
  intros m m' base img p Hp R A B. apply nth_ext_len with (d := 0%N); [now rewrite length_img_read|].
  intros k Hk. rewrite length_img_read in Hk. rewrite nth_img_read by auto.
  destruct (le_lt_dec (length img) k) as [G|L].
  - rewrite app_nth2 by auto. rewrite app_length in Hk. rewrite <- B by lia. f_equal. lia.
  - rewrite app_nth1 by auto. rewrite A by lia. rewrite <- R at 1. now rewrite nth_img_read.
Qed.

Lemma write_flash_piece : forall c f k i base r d img p, (flash_size c < 2 ^ 32)%N -> (256 <= sector c)%N ->
  sane_region c r -> r_back r = Nor base -> healthy f -> bytes_ok p -> 0 < length p <= 255 ->
  (N.of_nat (length img) + N.of_nat (length p) <= r_len r)%N ->
  stored c i r [] d img ->
  exists s', write_flash c f k i base (N.of_nat (length img)) p (st d) = (Ok, s') /\
    forall d', st d' = s' -> stored c i r [] d' (img ++ p).
Proof.
  intros c f k i base r d img p HF HS [HL SR] Bk H Hp Lp Lr ST. unfold stored in ST. rewrite Bk in ST, SR.
  destruct SR as (HL0 & HB & HM & HE). destruct ST as [ST1 ST2].
  destruct (H k) as (H1 & H2 & H3 & H4). unfold write_flash.
  set (s1 := if (N.of_nat (length img) =? 0)%N then set_erase i base (st d) else st d).
  assert (flash s1 = flash (st d)) as F1 by (unfold s1; destruct (_ =? 0)%N; reflexivity).
  set (off := (base + N.of_nat (length img))%N).
  assert (off <= erase_at s1 i <= base + r_len r /\ erase_at s1 i mod sector c = 0 /\
          blank_on (flash s1) off (erase_at s1 i - off))%N as ((Q1 & Q2) & Q3 & Q4).
  { rewrite F1. unfold s1. destruct (N.of_nat (length img) =? 0)%N eqn:E.
    - cbn. rewrite Nat.eqb_refl. unfold off. split; [lia|]. split; [auto|].
      intros x Hx. lia.
    - destruct ST2 as [->|ST2]; [cbn in E; lia|]. cbv zeta in ST2. unfold off. tauto. }
  clearbody s1. clear ST2.
  assert (forall s2 m2, (forall x, (base <= x < off)%N -> flash s2 x = flash (st d) x) ->
      (off + N.of_nat (length p) <= erase_at s2 i <= base + r_len r)%N -> (erase_at s2 i mod sector c = 0)%N ->
      blank_on (flash s2) off (erase_at s2 i - off) ->
      m2 = program (flash s2) off p (fst (f_write f k)) ->
      forall d', st d' = set_flash m2 s2 -> stored c i r [] d' (img ++ p)) as W.
  { intros s2 m2 A1 A2 A3 A4 -> d' Hd. unfold program in Hd. rewrite firstn_all2 in Hd by lia.
    unfold stored. rewrite Bk, Hd. cbn [flash set_flash erase_at]. split; [|right; cbv zeta].
    - apply read_extend with (m := flash (st d)); auto.
      + intros x Hx. rewrite nor_write_out by (unfold off; lia). apply A1. unfold off. lia.
      + intros j Hj. unfold off. rewrite nor_write_blank; [f_equal; lia|auto|lia|]. apply A4. unfold off. lia.
    - rewrite app_length. split; [split; [unfold off in A2; lia|auto]|].
      intros x Hx. rewrite nor_write_out by (unfold off; lia). apply A4. unfold off. lia. }
  fold off. destruct (erase_at s1 i <? off + N.of_nat (length p))%N eqn:E.
  - rewrite H1. cbv iota. rewrite H2. cbn [negb].
    assert (erase_at s1 i / sector c * sector c = erase_at s1 i)%N as EA.
    { pose proof (N.div_mod (erase_at s1 i) (sector c) ltac:(lia)). lia. }
    rewrite EA.
    assert (erase_at s1 i + sector c <= base + r_len r)%N as RM.
    { apply sector_room; [lia|auto|apply add_mod0; auto; lia|unfold off in *; lia]. }
    destruct (f_write f k) as [w wok] eqn:FW. cbn [fst snd] in *. rewrite H3.
    eexists. split; [reflexivity|]. intros d' Hd.
    eapply W; [| | | |reflexivity|exact Hd]; cbn [flash set_flash set_erase erase_at]; rewrite ?Nat.eqb_refl.
    + intros x Hx. rewrite nor_erase_out by lia. now rewrite F1.
    + unfold w32. rewrite N.mod_small by lia. unfold off in *. lia.
    + unfold w32. rewrite (N.mod_small _ (2 ^ 32)) by lia. apply add_mod0; [lia|auto|]. apply N.mod_same. lia.
    + unfold w32. rewrite N.mod_small by lia. intros x Hx.
      destruct (N.lt_ge_cases x (erase_at s1 i)).
      * rewrite nor_erase_out by lia. apply Q4. lia.
      * apply nor_erase_in. lia.
  - destruct (f_write f k) as [w wok] eqn:FW. cbn [fst snd] in *. rewrite H3.
    eexists. split; [reflexivity|]. intros d' Hd.
    eapply W; [| | | |reflexivity|exact Hd]; auto.
    + intros x Hx. now rewrite F1.
    + unfold off in *. lia.
Qed.

Lemma write_piece : forall c f i r d p m0 img, sane c -> nth_error (regions c) i = Some r -> writable r ->
  r_back r <> Log -> (r_back r = Ram -> N.of_nat (length m0) = r_len r) -> healthy f ->
  ic_cms d = N.of_nat i -> ic_off d = N.of_nat (length img) -> 0 < length p <= 255 -> bytes_ok p ->
  (N.of_nat (length img) + N.of_nat (length p) <= r_len r)%N -> stored c i r m0 d img ->
  exists d', write_request c f (set_active CMD_INDIRECT_DATA d) p = Ret (Ok, d', []) /\ stored c i r m0 d' (img ++ p) /\
    ic_cms d' = ic_cms d /\ ic_off d' = (N.of_nat (length img) + up4 (N.of_nat (length p)))%N /\ istat d' = istat d /\ proto d' = proto d.
Proof.
  intros c f i r d p m0 img (HF & HS & _ & SR) Hn W NL M0 H IC IO Lp Hp Lr ST.
  unfold write_request. cbn [active set_active].
  change (CMD_INDIRECT_DATA =? 0)%N with false. change (CMD_INDIRECT_DATA =? CMD_RESET)%N with false.
  change (CMD_INDIRECT_DATA =? CMD_RECOVERY_CTRL)%N with false. change (CMD_INDIRECT_DATA =? CMD_INDIRECT_CTRL)%N with false.
  change (CMD_INDIRECT_DATA =? CMD_INDIRECT_DATA)%N with true. cbv iota.
  unfold write_indirect_data. rewrite (regions_some _ _ _ Hn). cbn [ic_cms set_active]. rewrite IC, Nat2N.id, Hn.
  replace (negb (r_type r =? REGION_CODE)%N && negb (r_type r =? REGION_RW)%N) with false by (unfold writable in W; lia).
  assert (sane_region c r) as Sr by (rewrite Forall_forall in SR; apply SR; eapply nth_error_In; eauto).
  assert (r_len r < 2 ^ 32 - 4)%N as HL by apply Sr.
  cbn [write_loop]. cbn [ic_off set_active].
  replace (r_len r <=? ic_off d)%N with false by lia. cbn [ic_off set_active st]. rewrite IO.
  replace (Nat.min (length p) (N.to_nat (r_len r - N.of_nat (length img)))) with (length p) by lia.
  rewrite firstn_all, skipn_all.
  assert (w32 (N.of_nat (length img) + up4 (N.of_nat (length p))) = N.of_nat (length img) + up4 (N.of_nat (length p)))%N as EW.
  { unfold w32. apply N.mod_small. pose proof (up4_bound (N.of_nat (length p))). lia. }
  rewrite EW.
  destruct (r_back r) as [| |base] eqn:Bk; [|contradiction|].
  - specialize (M0 eq_refl). unfold stored in ST. rewrite Bk in ST.
    assert (length (mem (st d) i) = length m0) as LM.
    { rewrite ST, app_length, skipn_length. lia. }
    replace (N.to_nat (N.of_nat (length img)) + length p <=? length (mem (st d) i)) with true by lia.
    cbn [bind]. eexists. split; [reflexivity|]. cbn. split; [|auto].
    unfold stored. rewrite Bk. cbn. rewrite Nat.eqb_refl, ST, Nat2N.id. apply splice_end. lia.
  - assert (stored c i r [] d img) as ST' by (unfold stored in *; rewrite Bk in *; exact ST).
    destruct (write_flash_piece c f 0 i base r d img p HF HS Sr Bk H Hp Lp Lr ST') as (s' & R & S).
    rewrite R. cbn [bind]. eexists. split; [reflexivity|]. cbn. split; [|auto].
    assert (stored c i r [] (set_st s' d) (img ++ p)) as S2 by (apply S; reflexivity).
    unfold stored in *. rewrite Bk in *. exact S2.
Qed.

Lemma run_push : forall c a f i r m0 ps s img, (a < 128)%N -> sane c -> nth_error (regions c) i = Some r -> writable r ->
  r_back r <> Log -> (r_back r = Ram -> N.of_nat (length m0) = r_len r) -> healthy f ->
  ic_cms (dv s) = N.of_nat i -> ic_off (dv s) = N.of_nat (length img) ->
  (N.of_nat (length img) + N.of_nat (length (concat ps)) <= r_len r)%N -> pieces ps -> stored c i r m0 (dv s) img ->
  exists s' outs, run c s (flat_map (push a f) ps) = Ret (s', outs) /\ stored c i r m0 (dv s') (img ++ concat ps) /\
    istat (dv s') = istat (dv s) /\ proto (dv s') = proto (dv s) /\ Forall silent outs.
Proof.
  intros c a f i r m0 ps. induction ps as [|p t IH]; intros s img Ha SA Hn W NL M0 H IC IO L P ST.
  - cbn [flat_map run concat]. rewrite app_nil_r. eexists _, _. split; [reflexivity|]. auto.
  - cbn [flat_map concat] in *. destruct P as (Lp & Hp & Hal & P). rewrite app_length in L.
    destruct (write_piece c f i r (dv s) p m0 img SA Hn W NL M0 H IC IO Lp Hp ltac:(lia) ST) as (d' & R & S & E1 & E2 & E3 & E4).
    assert (known 0x2b) as K by (unfold known; lia).
    pose proof (run_message c s a (0x2b%N :: N.of_nat (length p) :: p) f (Deliver 0x2b p) Ha) as M.
    assert (bytes_ok (0x2b%N :: N.of_nat (length p) :: p)) as Hok.
    { constructor; [reflexivity|]. constructor; [unfold byte_ok; lia|auto]. }
    specialize (M Hok (F_plain a 0x2b p K)). cbn [effect] in M. change 0x2b%N with CMD_INDIRECT_DATA in M.
    rewrite R in M. cbn [outcome_of] in M. destruct M as (s1 & outs & RM & D & Q1 & _).
    rewrite run_app. unfold push at 1. change 0x2b%N with CMD_INDIRECT_DATA. rewrite RM. cbn [bind].
    destruct t as [|p2 t2].
    + cbn [flat_map run bind concat]. rewrite !app_nil_r. eexists _, _. split; [reflexivity|]. rewrite D.
      split; [exact S|]. split; [auto|]. split; [auto|]. apply Forall_app. split; [auto|]. repeat constructor.
    + destruct Hal as [Hal|Hal]; [discriminate|].
      assert (up4 (N.of_nat (length p)) = N.of_nat (length p)) as U.
      { unfold up4. pose proof (Nat.div_mod (length p) 4 ltac:(lia)) as DM. rewrite Hal in DM.
        set (q := length p / 4) in *. clearbody q. rewrite DM.
        replace (N.of_nat (4 * q + 0) + 3)%N with (N.of_nat q * 4 + 3)%N by lia.
        rewrite N.div_add_l by lia. change (3 / 4)%N with 0%N. lia. }
      destruct (IH s1 (img ++ p) Ha SA Hn W NL M0 H) as (s2 & outs2 & R2 & S2 & I2 & P2 & Q2); auto.
      * rewrite D. congruence.
      * rewrite D, E2, U, app_length. lia.
      * rewrite app_length. lia.
      * now rewrite D.
      * rewrite R2. cbn [bind]. eexists _, _. split; [reflexivity|]. rewrite app_assoc. split; [exact S2|].
        split; [rewrite I2, D; auto|]. split; [rewrite P2, D; auto|].
        apply Forall_app. split; [|auto]. apply Forall_app. split; [auto|]. repeat constructor.
Qed.

Lemma le32_ok : forall x, bytes_ok (le32 x).
Proof. intros. unfold le32. repeat (constructor; [apply N.mod_lt; lia|]). constructor. Qed.

Lemma le32_value : forall x, (x < 2 ^ 32)%N -> le_value (le32 x) = x.
Proof.
  intros. unfold le32. cbn [le_value].
  pose proof (N.div_mod x 256 ltac:(lia)). pose proof (N.div_mod (x / 256) 256 ltac:(lia)).
  pose proof (N.div_mod (x / 256 / 256) 256 ltac:(lia)). pose proof (N.div_mod (x / 256 / 256 / 256) 256 ltac:(lia)).
  rewrite !N.div_div in * by lia. change (256 * 256)%N with 65536%N in *. change (65536 * 256)%N with 16777216%N in *.
  change (16777216 * 256)%N with 4294967296%N in *.
  assert (x / 4294967296 = 0)%N by (apply N.div_small; exact H). lia.
Qed.

Lemma run_select : forall c s a i off f, (a < 128)%N -> i < 256 -> (off < 2 ^ 32)%N -> (off mod 4 = 0)%N ->
  cms c <> None ->
  exists s' outs, run c s (select a i off f) = Ret (s', outs) /\ Forall silent outs /\
    dv s' = set_active 0 (set_ictrl (N.of_nat i) 0 off (dv s)).
Proof.
  intros c s a i off f Ha Hi Ho Hal Hc. unfold select.
  pose proof (run_message c s a (0x29%N :: N.of_nat (length ([N.of_nat i; 0%N] ++ le32 off)) :: [N.of_nat i; 0%N] ++ le32 off) f
    (Deliver 0x29 ([N.of_nat i; 0%N] ++ le32 off)) Ha) as M.
  assert (known 0x29) as K by (unfold known; lia).
  assert (bytes_ok (0x29%N :: N.of_nat (length ([N.of_nat i; 0%N] ++ le32 off)) :: [N.of_nat i; 0%N] ++ le32 off)) as Hok.
  { constructor; [reflexivity|]. constructor; [reflexivity|]. constructor; [unfold byte_ok; lia|]. constructor; [reflexivity|].
    apply le32_ok. }
  specialize (M Hok (F_plain a 0x29 ([N.of_nat i; 0%N] ++ le32 off) K)).
  assert (effect c f (Deliver 0x29 ([N.of_nat i; 0%N] ++ le32 off)) (dv s) =
    Ret (set_active 0 (set_ictrl (N.of_nat i) 0 off (dv s)), [])) as E.
  { unfold effect, write_request. cbn [active set_active].
    change (0x29 =? 0)%N with false. change (0x29 =? CMD_RESET)%N with false.
    change (0x29 =? CMD_RECOVERY_CTRL)%N with false. change (0x29 =? CMD_INDIRECT_CTRL)%N with true. cbv iota.
    unfold sized. change (length ([N.of_nat i; 0%N] ++ le32 off) =? 6) with true. cbv iota.
    unfold write_indirect_ctrl. destruct (cms c) as [l|]; [|contradiction].
    change (nth 0 ([N.of_nat i; 0%N] ++ le32 off) 0%N) with (N.of_nat i).
    change (nth 1 ([N.of_nat i; 0%N] ++ le32 off) 0%N) with 0%N.
    change (firstn 4 (skipn 2 ([N.of_nat i; 0%N] ++ le32 off))) with (le32 off). rewrite le32_value by auto.
    assert (w32 (off + 3) / 4 * 4 = off)%N as EO.
    { apply N.mod_divides in Hal; [|lia]. destruct Hal as [q ->].
      unfold w32. rewrite N.mod_small.
      - replace (4 * q + 3)%N with (q * 4 + 3)%N by lia. rewrite N.div_add_l by lia. change (3 / 4)%N with 0%N. lia.
      - change (2 ^ 32)%N with 4294967296%N in *. lia. }
    rewrite EO. cbn [bind]. reflexivity. }
  rewrite E in M. cbn [outcome_of] in M. destruct M as (s' & outs & R & D & Q & _).
  change ([0x29%N; 6%N; N.of_nat i; 0%N] ++ le32 off)
    with (0x29%N :: N.of_nat (length ([N.of_nat i; 0%N] ++ le32 off)) :: [N.of_nat i; 0%N] ++ le32 off).
  eexists _, _. split; [exact R|]. split; [|exact D]. apply Forall_app. split; [auto|]. repeat constructor.
Qed.

Lemma run_transfer : forall c s a i r f ps, (a < 128)%N -> i < 256 -> sane c -> nth_error (regions c) i = Some r ->
  writable r -> (0 < r_len r)%N -> fits c (st (dv s)) -> healthy f -> pieces ps -> (N.of_nat (length (concat ps)) <= r_len r)%N ->
  exists s' outs, run c s (select a i 0 f ++ flat_map (push a f) ps) = Ret (s', outs) /\ Forall silent outs /\
    stored c i r (mem (st (dv s)) i) (dv s') (concat ps) /\ istat (dv s') = istat (dv s) /\ proto (dv s') = proto (dv s).
Proof.
  intros c s a i r f ps Ha Hi SA Hn W L0 FI H P L.
  assert (r_back r <> Log) as NL.
  { intros Q. destruct SA as (_ & _ & _ & SR). rewrite Forall_forall in SR. destruct (SR r (nth_error_In _ _ Hn)) as [_ Sr].
    rewrite Q in Sr. lia. }
  destruct (run_select c s a i 0 f Ha Hi ltac:(reflexivity) eq_refl) as (s1 & outs & R & Q & D).
  { rewrite (regions_some _ _ _ Hn). discriminate. }
  destruct (run_push c a f i r (mem (st (dv s)) i) ps s1 [] Ha SA Hn W NL) as (s2 & outs2 & R2 & S2 & I2 & P2 & Q2); auto.
  - rewrite D. reflexivity.
  - rewrite D. reflexivity.
  - rewrite D. unfold stored. cbn. destruct (r_back r); auto.
  - rewrite run_app, R. cbn [bind]. rewrite R2. cbn [bind]. eexists _, _. split; [reflexivity|].
    split; [apply Forall_app; auto|]. split; [exact S2|]. rewrite I2, P2, D. auto.
Qed.

(** ** Reading back *)

Lemma read_piece : forall c e i r d l off, sane c -> nth_error (regions c) i = Some r -> holds (st d) e i r l ->
  (match r_back r with Log => True | _ => N.of_nat (length l) = r_len r end) -> (N.of_nat (length l) < 2 ^ 32 - 4)%N ->
  ic_cms d = N.of_nat i -> ic_off d = N.of_nat off -> off < length l ->
  let w := window off (Nat.min 252 (length l - off)) l in
  exists d', read_request c e (set_active CMD_INDIRECT_DATA d) =
    Ret (Answer (w ++ repeat 0%N (255 - length w)) (N.to_nat (up4 (N.of_nat (length w)))), d') /\
    st d' = st d /\ ic_cms d' = ic_cms d /\ ic_off d' = (N.of_nat off + up4 (N.of_nat (length w)))%N /\ istat d' = istat d.
Proof.
  intros c e i r d l off SA Hn H LE LB IC IO Lo w.
  assert (length w = Nat.min 252 (length l - off)) as LW.
  { unfold w, window. rewrite firstn_length, skipn_length. lia. }
  unfold read_request. cbn [active set_active].
  change (CMD_INDIRECT_DATA =? 0)%N with false. change (CMD_INDIRECT_DATA =? CMD_PROT_CAP)%N with false.
  change (CMD_INDIRECT_DATA =? CMD_DEVICE_ID)%N with false. change (CMD_INDIRECT_DATA =? CMD_DEVICE_STATUS)%N with false.
  change (CMD_INDIRECT_DATA =? CMD_RESET)%N with false. change (CMD_INDIRECT_DATA =? CMD_RECOVERY_CTRL)%N with false.
  change (CMD_INDIRECT_DATA =? CMD_RECOVERY_STATUS)%N with false. change (CMD_INDIRECT_DATA =? CMD_INDIRECT_CTRL)%N with false.
  change (CMD_INDIRECT_DATA =? CMD_INDIRECT_STATUS)%N with false. change (CMD_INDIRECT_DATA =? CMD_INDIRECT_DATA)%N with true. cbv iota.
  unfold read_indirect_data. rewrite (regions_some _ _ _ Hn). cbn [ic_cms set_active]. rewrite IC, Nat2N.id, Hn.
  assert (w32 (N.of_nat off + up4 (N.of_nat (length w))) = N.of_nat off + up4 (N.of_nat (length w)))%N as EW.
  { unfold w32. apply N.mod_small. pose proof (up4_bound (N.of_nat (length w))). lia. }
  destruct SA as (_ & _ & _ & SR). rewrite Forall_forall in SR. destruct (SR r (nth_error_In _ _ Hn)) as [_ Sr].
  cbv zeta. unfold holds in H. destruct (r_back r) as [| |base] eqn:Bk.
  - replace (r_len r =? 0)%N with false by lia. cbn [ic_off set_active st]. rewrite IO.
    replace (r_len r <=? N.of_nat off)%N with false by lia. cbn [ic_off set_active st]. rewrite IO, H, Nat2N.id.
    replace (Nat.min (N.to_nat (r_len r - N.of_nat off)) 252) with (Nat.min 252 (length l - off)) by lia. fold w.
    replace (off + Nat.min 252 (length l - off) <=? length l) with true by lia.
    replace (length w <=? 255) with true by lia. cbn [bind]. rewrite EW. eexists. split; [reflexivity|]. cbn. auto.
  - rewrite Sr. destruct H as [H1 H2]. rewrite H1. cbn [ic_off set_active st]. rewrite IO.
    replace (N.of_nat (length l) <=? N.of_nat off)%N with false by lia. cbn [ic_off set_active st N.eqb]. rewrite IO, H2, Nat2N.id by lia.
    fold w. replace (length w <=? 255) with true by lia. cbn [bind]. rewrite EW. eexists. split; [reflexivity|]. cbn. auto.
  - destruct H as [H1 H2]. replace (r_len r =? 0)%N with false by lia. cbn [ic_off set_active st]. rewrite IO.
    replace (r_len r <=? N.of_nat off)%N with false by lia. cbn [ic_off set_active st]. rewrite IO, H2.
    assert (img_read (flash (st d)) (base + N.of_nat off) (Nat.min (N.to_nat (r_len r - N.of_nat off)) 252) = w) as EI.
    { apply nth_ext_len with (d := 0%N); [rewrite length_img_read; lia|].
      intros k Hk. rewrite length_img_read in Hk. rewrite nth_img_read by auto. unfold w.
      rewrite nth_window by lia. rewrite <- H1. rewrite nth_img_read by lia. f_equal. lia. }
    rewrite EI. replace (length w <=? 255) with true by lia. cbn [bind]. rewrite EW. eexists. split; [reflexivity|]. cbn. auto.
Qed.

Lemma received_app : forall a b, received (a ++ b) = received a ++ received b.
Proof. intros. unfold received. apply flat_map_app. Qed.

Lemma sent_payload : forall l n bytes q, firstn (n + 2) l = N.of_nat n :: firstn n bytes ++ [q] -> n <= length bytes ->
  received [Sent l] = firstn n bytes.
Proof.
  intros l n bytes q H L. unfold received. cbn [flat_map]. rewrite app_nil_r. destruct l as [|x t]; [replace (n + 2) with (S (S n)) in H by lia; discriminate|].
  replace (n + 2) with (S (S n)) in H by lia. cbn [firstn] in H. injection H as -> H. cbn [hd tl]. rewrite Nat2N.id.
  assert (firstn n (firstn (S n) t) = firstn n (firstn n bytes ++ [q])) as F by (cbn [firstn]; f_equal; exact H).
  rewrite firstn_firstn in F. replace (Nat.min n (S n)) with n in F by lia. rewrite F.
  rewrite firstn_app, firstn_firstn, Nat.min_id, firstn_length_le, Nat.sub_diag by lia. cbn [firstn]. apply app_nil_r.
Qed.

(** The content from [off] on, filled up with zeros. *)
Definition tail4 (l : list N) (off : nat) : list N :=
  skipn off l ++ repeat 0%N (N.to_nat (up4 (N.of_nat (length l - off))) - (length l - off)).

Lemma up4_252_eq : up4 252 = 252%N.
Proof. reflexivity. Qed.

Lemma up4_add : forall q n, up4 (N.of_nat (252 * q) + n) = (N.of_nat (252 * q) + up4 n)%N.
Proof.
  intros. unfold up4. replace (N.of_nat (252 * q) + n + 3)%N with (63 * N.of_nat q * 4 + (n + 3))%N by lia.
  rewrite N.div_add_l by lia. lia.
Qed.

Lemma run_fetch : forall c a e f i r l k s off, (a < 128)%N -> sane c -> nth_error (regions c) i = Some r ->
  holds (st (dv s)) e i r l -> (match r_back r with Log => True | _ => N.of_nat (length l) = r_len r end) ->
  (N.of_nat (length l) < 2 ^ 32 - 4)%N -> bytes_ok l -> ic_cms (dv s) = N.of_nat i -> ic_off (dv s) = N.of_nat off ->
  252 * k < length l - off <= 252 * S k -> off < length l ->
  exists s' outs, run c s (concat (repeat (fetch a e f) (S k))) = Ret (s', outs) /\ st (dv s') = st (dv s) /\
    received outs = tail4 l off /\ Forall silent outs /\ istat (dv s') = istat (dv s).
Proof.
  intros c a e f i r l k. induction k as [|k IH]; intros s off Ha SA Hn H LE LB Hl IC IO K Lo.
  - destruct (read_piece c e i r (dv s) l off SA Hn H LE LB IC IO Lo) as (d' & R & E1 & E2 & E3 & E4).
    replace (Nat.min 252 (length l - off)) with (length l - off) in * by lia.
    set (w := window off (length l - off) l) in *.
    assert (w = skipn off l) as Ew by (unfold w, window; apply firstn_all2; rewrite skipn_length; lia).
    assert (length w = length l - off) as Lw by (rewrite Ew, skipn_length; lia).
    pose proof (up4_252 (N.of_nat (length w)) ltac:(lia)) as U1. pose proof (up4_bound (N.of_nat (length w))) as U2.
    set (n := N.to_nat (up4 (N.of_nat (length w)))) in *.
    pose proof (run_query c s a CMD_INDIRECT_DATA e f Ha ltac:(reflexivity) ltac:(unfold known, CMD_INDIRECT_DATA; lia)) as Q.
    rewrite R in Q.
    assert (firstn n (w ++ repeat 0%N (255 - length w)) = w ++ repeat 0%N (n - length w)) as FN.
    { rewrite firstn_app, firstn_all2 by lia. f_equal.
      replace (255 - length w) with ((n - length w) + (255 - n)) by lia.
      rewrite repeat_app, firstn_app, repeat_length, Nat.sub_diag. cbn [firstn]. rewrite app_nil_r. apply firstn_all2. rewrite repeat_length. lia. }
    assert (bytes_ok w) as Hw by (rewrite Ew; now apply Forall_skipn).
    destruct Q as (s' & lo & q & RQ & D & F & P).
    + rewrite app_length, repeat_length. lia.
    + lia.
    + rewrite FN. apply Forall_app. split; [auto|]. apply Forall_forall. intros x Hx. apply repeat_spec in Hx. subst x. reflexivity.
    + cbn [repeat concat]. rewrite app_nil_r. unfold fetch. change 0x2b%N with CMD_INDIRECT_DATA. rewrite RQ.
      eexists _, _. split; [reflexivity|]. rewrite D. split; [auto|]. split; [|split; [repeat constructor|auto]].
      change [Quiet; Ack true; Sent lo; Events []] with ([Quiet; Ack true] ++ [Sent lo] ++ [Events []]).
      rewrite !received_app. rewrite (sent_payload lo n _ q F) by (rewrite app_length, repeat_length; lia).
      rewrite FN. unfold tail4. cbn [received flat_map app]. rewrite app_nil_r, Ew. f_equal. f_equal.
      unfold n. now rewrite Lw, skipn_length.
  - destruct (read_piece c e i r (dv s) l off SA Hn H LE LB IC IO Lo) as (d' & R & E1 & E2 & E3 & E4).
    replace (Nat.min 252 (length l - off)) with 252 in * by lia.
    set (w := window off 252 l) in *.
    assert (length w = 252) as Lw by (unfold w; rewrite length_window; lia).
    rewrite Lw in R, E3. change (up4 (N.of_nat 252)) with 252%N in *. change (N.to_nat 252) with 252 in R.
    pose proof (run_query c s a CMD_INDIRECT_DATA e f Ha ltac:(reflexivity) ltac:(unfold known, CMD_INDIRECT_DATA; lia)) as Q.
    rewrite R in Q.
    assert (firstn 252 (w ++ repeat 0%N (255 - 252)) = w) as FN.
    { rewrite firstn_app, Lw, Nat.sub_diag, firstn_O, app_nil_r. apply firstn_all2. lia. }
    assert (bytes_ok w) as Hw by (unfold w, window; apply Forall_firstn; now apply Forall_skipn).
    destruct Q as (s' & lo & q & RQ & D & F & P).
    + rewrite app_length, repeat_length. lia.
    + lia.
    + rewrite FN. auto.
    + destruct (IH s' (off + 252) Ha SA Hn) as (s2 & outs & R2 & S2 & Rc & Q2 & I2); auto.
      * rewrite D, E1. auto.
      * rewrite D. congruence.
      * rewrite D, E3. lia.
      * lia.
      * lia.
      * change (repeat (fetch a e f) (S (S k))) with (fetch a e f :: repeat (fetch a e f) (S k)).
        change (concat (fetch a e f :: repeat (fetch a e f) (S k))) with (fetch a e f ++ concat (repeat (fetch a e f) (S k))).
        rewrite run_app. unfold fetch at 1. change 0x2b%N with CMD_INDIRECT_DATA. rewrite RQ. cbn [bind]. rewrite R2. cbn [bind].
        eexists _, _. split; [reflexivity|]. split; [rewrite S2, D; auto|]. split; [|split; [|rewrite I2, D; auto]].
        -- change ([Quiet; Ack true; Sent lo; Events []] ++ outs) with ([Quiet; Ack true] ++ [Sent lo] ++ [Events []] ++ outs).
           rewrite !received_app. rewrite (sent_payload lo 252 _ q F) by (rewrite app_length, repeat_length; lia).
           rewrite FN, Rc. cbn [received flat_map app]. unfold tail4. rewrite app_assoc. f_equal.
           ++ unfold w, window. rewrite <- (firstn_skipn 252 (skipn off l)) at 2. rewrite skipn_skipn. reflexivity.
           ++ f_equal. replace (N.of_nat (length l - off)) with (N.of_nat (252 * 1) + N.of_nat (length l - (off + 252)))%N by lia.
              rewrite up4_add. lia.
        -- apply Forall_app. split; [repeat constructor|auto].
Qed.

(** ** Wrapping around the end of a memory region *)

Lemma write_wraps : forall c f i r d data, sane c -> nth_error (regions c) i = Some r -> writable r -> r_back r = Ram ->
  N.of_nat (length (mem (st d) i)) = r_len r -> ic_cms d = N.of_nat i ->
  (r_len r mod 4 = 0)%N -> (ic_off d mod 4 = 0)%N -> (ic_off d < r_len r)%N -> (0 < N.of_nat (length data) <= r_len r)%N -> length data <= 255 ->
  let len := length (mem (st d) i) in
  let off := N.to_nat (ic_off d) in
  exists d', write_request c f (set_active CMD_INDIRECT_DATA d) data = Ret (Ok, d', []) /\
    length (mem (st d') i) = len /\
    (forall k, k < length data -> nth ((off + k) mod len) (mem (st d') i) 0%N = nth k data 0%N) /\
    (forall k, length data <= k < len -> nth ((off + k) mod len) (mem (st d') i) 0%N = nth ((off + k) mod len) (mem (st d) i) 0%N) /\
    istat d' = (if off + length data <=? len then istat d else N.lor (istat d) 1) /\ proto d' = proto d.
Proof.
  intros c f i r d data (HF & HS & _ & SR) Hn W Bk ML IC HA OA OL DL DL2 len off.
  assert (sane_region c r) as Sr by (rewrite Forall_forall in SR; apply SR; eapply nth_error_In; eauto).
  destruct Sr as [HL Sr]. rewrite Bk in Sr.
  unfold write_request. cbn [active set_active].
  change (CMD_INDIRECT_DATA =? 0)%N with false. change (CMD_INDIRECT_DATA =? CMD_RESET)%N with false.
  change (CMD_INDIRECT_DATA =? CMD_RECOVERY_CTRL)%N with false. change (CMD_INDIRECT_DATA =? CMD_INDIRECT_CTRL)%N with false.
  change (CMD_INDIRECT_DATA =? CMD_INDIRECT_DATA)%N with true. cbv iota.
  unfold write_indirect_data. rewrite (regions_some _ _ _ Hn). cbn [ic_cms set_active]. rewrite IC, Nat2N.id, Hn.
  replace (negb (r_type r =? REGION_CODE)%N && negb (r_type r =? REGION_RW)%N) with false by (unfold writable in W; lia).
  assert (len = N.to_nat (r_len r)) as EL by (unfold len; lia).
  assert (exists fu, S (length data) = S fu /\ exists m, fu = S m) as (fu & -> & FU).
  { exists (length data). split; [reflexivity|]. exists (length data - 1). lia. }
  cbn [write_loop]. cbn [ic_off set_active]. rewrite Bk.
  replace (r_len r <=? ic_off d)%N with false by lia. cbn [ic_off set_active st]. fold off.
  destruct (off + length data <=? len) eqn:E.
  - replace (Nat.min (length data) (N.to_nat (r_len r - ic_off d))) with (length data) by lia.
    rewrite firstn_all, skipn_all. fold len. replace (off + length data <=? len) with true by lia.
    cbn [bind]. eexists. split; [reflexivity|]. cbn. rewrite Nat.eqb_refl.
    split; [apply length_splice; fold len; lia|]. split; [|split; [|auto]].
    + intros k Hk. rewrite Nat.mod_small by lia. apply nth_splice_in; fold len; lia.
    + intros k Hk. apply nth_splice_out; [fold len; lia|].
      destruct (le_lt_dec len (off + k)) as [G|L].
      * replace (off + k) with (off + k - len + 1 * len) by lia. rewrite Nat.mod_add, Nat.mod_small by lia. lia.
      * rewrite Nat.mod_small by lia. lia.
  - set (n := N.to_nat (r_len r - ic_off d)).
    replace (Nat.min (length data) n) with n by lia.
    replace (off + n <=? length (mem (st d) i)) with true by (unfold n, len, off in *; lia).
    destruct (skipn n data) as [|x t] eqn:SK.
    { exfalso. assert (length (skipn n data) = 0) as Q by now rewrite SK. rewrite skipn_length in Q. unfold n, off in *. lia. }
    rewrite <- SK.
    assert (w32 (ic_off d + up4 (N.of_nat n)) = r_len r) as EW.
    { assert (up4 (N.of_nat n) = r_len r - ic_off d)%N as EU.
      { unfold n. rewrite N2Nat.id. apply N.mod_divides in OA, HA; [|lia|lia].
        destruct OA as [q1 Q1], HA as [q2 Q2]. rewrite Q1, Q2 in *. unfold up4.
        replace (4 * q2 - 4 * q1 + 3)%N with ((q2 - q1) * 4 + 3)%N by lia.
        rewrite N.div_add_l by lia. change (3 / 4)%N with 0%N. lia. }
      rewrite EU. unfold w32. rewrite N.mod_small by lia. lia. }
    rewrite EW. destruct FU as [m ->].
    match goal with |- context [write_loop (S m) c f 1 i r (skipn n data) ?x] => remember x as dd eqn:Edd end.
    assert (ic_off dd = r_len r) as D1 by now rewrite Edd.
    assert (mem (st dd) i = splice (mem (st d) i) off (firstn n data)) as D2 by (rewrite Edd; cbn; now rewrite Nat.eqb_refl).
    assert (istat dd = istat d /\ proto dd = proto d) as [D3 D4] by (now rewrite Edd). clear Edd.
    cbn [write_loop]. rewrite Bk, D1.
    replace (r_len r <=? r_len r)%N with true by lia. rewrite D3.
    match goal with |- context [set_istat ?v (set_off 0 dd)] => remember (set_istat v (set_off 0 dd)) as de eqn:Ede end.
    assert (ic_off de = 0%N) as G1 by now rewrite Ede.
    assert (st de = st dd) as G2 by now rewrite Ede.
    assert (istat de = N.lor (istat d) 1 /\ proto de = proto d) as [G3 G4] by (now rewrite Ede). clear Ede.
    rewrite G1, G2, D2, N.sub_0_r.
    assert (length (skipn n data) = length data - n) as LS by apply skipn_length.
    replace (Nat.min (length (skipn n data)) (N.to_nat (r_len r))) with (length (skipn n data)) by lia.
    rewrite firstn_all, skipn_all.
    assert (length (firstn n data) = n) as LF by (rewrite firstn_length; unfold n, off in *; lia).
    assert (length (splice (mem (st d) i) off (firstn n data)) = len) as L1.
    { rewrite length_splice; auto. fold len. rewrite LF. unfold n, off in *. lia. }
    rewrite L1. change (N.to_nat 0) with 0. replace (0 + length (skipn n data) <=? len) with true by lia.
    cbn [bind]. eexists. split; [reflexivity|]. remember (splice (splice (mem (st d) i) off (firstn n data)) 0 (skipn n data)) as mm eqn:Emm.
    cbn. rewrite Nat.eqb_refl, Emm. clear Emm.
    assert (off + n = len) as ON by (unfold n, off in *; lia). clearbody n.
    split; [rewrite length_splice; [auto|lia]|]. split; [|split; [|auto]].
    + intros k Hk. destruct (le_lt_dec n k) as [G|L].
      * replace (off + k) with (k - n + 1 * len) by lia. rewrite Nat.mod_add, Nat.mod_small by lia.
        change (k - n) with (0 + (k - n)). rewrite nth_splice_in by lia. rewrite nth_skipn. f_equal. lia.
      * rewrite Nat.mod_small by lia. rewrite nth_splice_out by lia. rewrite nth_splice_in by (fold len; lia). apply nth_firstn. lia.
    + intros k Hk. assert ((off + k) mod len = k - n) as EM.
      { replace (off + k) with (k - n + 1 * len) by lia. rewrite Nat.mod_add, Nat.mod_small by lia. reflexivity. }
      rewrite EM. rewrite nth_splice_out by lia. apply nth_splice_out; fold len; lia.
Qed.

(** A write hands no buffer to the bus driver. *)
Definition no_read (o : op) : Prop := match o with Transmit _ _ => False | _ => True end.

Lemma write_sends_nothing : forall c l s s' outs, run c s l = Ret (s', outs) -> Forall no_read l -> received outs = [].
Proof.
  intros c l. induction l as [|o t IH]; intros s s' outs H F; cbn [run] in H; [injection H as <- <-; reflexivity|].
  inversion F; subst. destruct (step c s o) as [[s1 x]|] eqn:E; [|discriminate]. cbn [bind] in H.
  destruct (run c s1 t) as [[s2 xs]|] eqn:E2; [|discriminate]. cbn [bind] in H. injection H as <- <-.
  change (x :: xs) with ([x] ++ xs). rewrite received_app, (IH _ _ _ E2) by auto. rewrite app_nil_r.
  destruct o as [a|b|f|a e]; cbn [step] in E; [| | |contradiction].
  - injection E as <- <-. reflexivity.
  - destruct (bus_byte b s) as [[]|]; cbn in E; [|discriminate]. injection E as <- <-. reflexivity.
  - destruct (bus_stop c f s) as [[]|]; cbn in E; [|discriminate]. injection E as <- <-. reflexivity.
Qed.
