(** The SMBus framing of OCP recovery commands. *)
From Coq Require Import List NArith ZArith Lia Bool Arith ZifyBool ZifyNat ZifyN.
From Verif Require Import Base Flash_Base FlashUpdater_Model Crc8_Model Crc8_Spec Crc8_Proofs OcpRecovery_Model OcpRecovery_Spec.
Import ListNotations.

Lemma run_app : forall c l1 s l2, run c s (l1 ++ l2) =
  '(s1, x) <- run c s l1; '(s2, y) <- run c s1 l2; Ret (s2, x ++ y).
Proof.
  intros c l1. induction l1 as [|o t IH]; intros s l2; cbn [run app].
  - cbn. destruct (run c s l2) as [[? ?]|]; reflexivity.
  - destruct (step c s o) as [[s1 x]|]; cbn [bind]; auto. rewrite IH.
    destruct (run c s1 t) as [[s2 xs]|]; cbn [bind]; auto.
    destruct (run c s2 l2) as [[s3 ys]|]; reflexivity.
Qed.

Definition zeros (n : nat) : list N := repeat 0%N n.

Lemma len_zeros : forall n, length (zeros n) = n.
Proof. intros. apply repeat_length. Qed.

Definition filled (s : bus) (t : list N) : bus :=
  {| buf := t ++ zeros (257 - length t); rx := Z.of_nat (length t); crc := crc s; dv := dv s |}.

Lemma wrs_filled : forall t x, length t < 257 ->
  wrs (t ++ zeros (257 - length t)) (length t) [x] = Ret ((t ++ [x]) ++ zeros (257 - length (t ++ [x]))).
Proof.
  intros. unfold wrs. rewrite app_length, len_zeros. cbn [length].
  replace (length t + 1 <=? length t + (257 - length t)) with true by lia. f_equal.
  rewrite app_length. cbn [length]. unfold splice.
  rewrite firstn_app, firstn_all, Nat.sub_diag. cbn [firstn]. rewrite app_nil_r, <- app_assoc. cbn [app length].
  f_equal. f_equal. rewrite skipn_app, skipn_all2 by lia. cbn [app].
  replace (length t + 1 - length t) with 1 by lia.
  replace (257 - length t) with (S (257 - (length t + 1))) by lia. reflexivity.
Qed.

Lemma run_recv : forall c u s t, length t + length u <= 257 ->
  run c (filled s t) (map Byte u) = Ret (filled s (t ++ u), map (fun _ => Ack true) u).
Proof.
  intros c u. induction u as [|x u IH]; intros s t L; cbn [map run]; [now rewrite app_nil_r|].
  cbn [step]. unfold bus_byte at 1. cbn [filled rx buf crc dv]. cbn [length] in L.
  replace (Z.of_nat (length t) <=? -2)%Z with false by lia.
  replace (Z.of_nat (length t) =? -1)%Z with false by lia.
  replace (Z.of_nat (length t) <? 257)%Z with true by lia.
  rewrite Nat2Z.id, wrs_filled by lia. cbn [bind].
  replace (Z.of_nat (length t) + 1)%Z with (Z.of_nat (length (t ++ [x]))) by (rewrite app_length; cbn [length]; lia).
  pose proof (IH s (t ++ [x]) ltac:(rewrite app_length; cbn [length]; lia)) as I.
  unfold filled in I at 1. rewrite I. cbn [bind]. now rewrite <- app_assoc.
Qed.

Definition nacked (s : bus) (d : dev) : Prop := (rx s <= -2)%Z /\ dv s = d.

Lemma run_nacked : forall c u s, (rx s <= -2)%Z -> run c s (map Byte u) = Ret (s, map (fun _ => Ack false) u).
Proof.
  intros c u. induction u as [|x u IH]; intros s H; cbn [map run]; auto.
  cbn [step]. unfold bus_byte at 1. replace (rx s <=? -2)%Z with true by lia. cbn [bind].
  rewrite IH by auto. reflexivity.
Qed.

Lemma known_test : forall x, known x -> ((x <? CMD_PROT_CAP) || (CMD_VENDOR <? x))%N = false.
Proof. unfold known, CMD_PROT_CAP, CMD_VENDOR. intros. lia. Qed.

Lemma unknown_test : forall x, ~ known x -> ((x <? CMD_PROT_CAP) || (CMD_VENDOR <? x))%N = true.
Proof. unfold known, CMD_PROT_CAP, CMD_VENDOR. intros. lia. Qed.

(** The state after the address and a known command code. *)
Definition opened (a x : N) (d : dev) : bus :=
  {| buf := zeros 257; rx := 0%Z; crc := crc8_update (crc8_init (a * 2 mod 256)) [x] 1; dv := set_active x d |}.

Lemma run_open : forall c s a x t, known x ->
  run c s (Start a :: Byte x :: t) =
  '(s', o) <- run c (opened a x (dv s)) t; Ret (s', Quiet :: Ack true :: o).
Proof.
  intros. cbn [run step bind]. unfold bus_byte, bus_start. cbn [rx crc dv buf].
  change (-1 <=? -2)%Z with false. change (-1 =? -1)%Z with true. cbv iota.
  unfold start_new_command. rewrite known_test by auto. cbn [bind].
  change (repeat 0%N 257) with (zeros 257).
  unfold opened. destruct (run c _ t) as [[? ?]|]; reflexivity.
Qed.

Lemma run_recv0 : forall c a x d t, length t <= 257 ->
  run c (opened a x d) (map Byte t) = Ret (filled (opened a x d) t, map (fun _ => Ack true) t).
Proof.
  intros. assert (filled (opened a x d) [] = opened a x d) as E.
  { unfold filled, opened. cbn [length app crc dv]. f_equal. }
  pose proof (run_recv c t (opened a x d) [] ltac:(cbn [length]; lia)) as R. rewrite E in R. exact R.
Qed.

Lemma byte_over : forall x s, rx s = 257%Z -> exists s', bus_byte x s = Ret (s', false) /\ rx s' = (-3)%Z /\
  dv s' = write_overflow (dv s).
Proof. intros x s H. unfold bus_byte. rewrite H. eexists. repeat split. Qed.

Lemma run_overflow : forall c a x d t, 257 < length t -> exists s outs,
  run c (opened a x d) (map Byte t) = Ret (s, outs) /\ (rx s <= -2)%Z /\ dv s = write_overflow (set_active x d) /\
  Forall (fun o => exists b, o = Ack b) outs.
Proof.
  intros c a x d t H.
  rewrite <- (firstn_skipn 257 t), map_app, run_app.
  assert (length (firstn 257 t) = 257) as L by (rewrite firstn_length_le; lia).
  rewrite run_recv0 by lia. cbn [bind].
  destruct (skipn 257 t) as [|y u] eqn:E.
  { assert (length (skipn 257 t) = 0) as Z by (rewrite E; reflexivity). rewrite skipn_length in Z. lia. }
  destruct (byte_over y (filled (opened a x d) (firstn 257 t))) as (s' & B & B1 & B2).
  { cbn [filled rx]. rewrite L. reflexivity. }
  cbn [map run step]. rewrite B. cbn [bind].
  rewrite run_nacked by lia. cbn [bind]. cbn [filled dv] in B2.
  eexists _, _. split; [reflexivity|]. split; [lia|]. split; [exact B2|].
  apply Forall_app. split; [|constructor; [eauto|]].
  - apply Forall_forall. intros o Ho. apply in_map_iff in Ho. destruct Ho as (? & <- & _). eauto.
  - apply Forall_forall. intros o Ho. apply in_map_iff in Ho. destruct Ho as (? & <- & _). eauto.
Qed.

(** ** The packet error code *)

Lemma remainder0 : is_crc_remainder 0 0.
Proof. split; [reflexivity|]. exists 0%N. reflexivity. Qed.

Lemma pec_loop : forall l q, bytes_ok l -> pec l q <-> q = crc8_loop 0 l.
Proof.
  intros l q H. pose proof (crc8_loop_remainder l 0 0 H remainder0) as R. unfold pec, be_value. split.
  - intros P. eapply remainder_unique; eauto.
  - now intros ->.
Qed.

Lemma crc_open : forall a x, (a < 128)%N -> crc8_update (crc8_init (a * 2 mod 256)) [x] 1 = crc8_loop 0 [(a * 2)%N; x].
Proof.
  intros. unfold crc8_init, crc8_update. change (1 mod 256) with 1. cbn [firstn].
  rewrite N.mod_small by lia. cbn [crc8_loop]. reflexivity.
Qed.

Lemma update_loop : forall c l, length l < 256 -> crc8_update c l (length l) = crc8_loop c l.
Proof. intros. unfold crc8_update. rewrite Nat.mod_small by lia. now rewrite firstn_all. Qed.

(** ** The end of a write *)

Lemma rd_filled : forall t i x, nth_error t i = Some x -> rd (t ++ zeros (257 - length t)) i = Ret x.
Proof.
  intros. unfold rd. rewrite nth_error_app1; [now rewrite H|]. apply nth_error_Some. congruence.
Qed.

Lemma rds_mid : forall a b z, rds (a ++ b ++ z) (length a) (length b) = Ret b.
Proof.
  intros. unfold rds. rewrite !app_length. replace (_ <=? _) with true by lia. unfold window.
  rewrite skipn_app, skipn_all, Nat.sub_diag. cbn [skipn app]. rewrite firstn_app, firstn_all, Nat.sub_diag.
  cbn [firstn]. now rewrite app_nil_r.
Qed.

Lemma nth_error_mid : forall {A} (a b : list A) x, nth_error (a ++ x :: b) (length a) = Some x.
Proof. intros. rewrite nth_error_app2, Nat.sub_diag by lia. reflexivity. Qed.

Lemma stop_none : forall c f s, (rx s <= 0)%Z -> exists s', bus_stop c f s = Ret (s', []) /\ dv s' = dv s.
Proof.
  intros. unfold bus_stop. replace (0 <? rx s)%Z with false by lia. eexists. split; reflexivity.
Qed.

Lemma stop_short : forall c f s n p, (N.of_nat (length p) < n)%N -> length p <= 256 -> exists s',
  bus_stop c f (filled s (n :: p)) = Ret (s', []) /\ dv s' = write_incomplete (dv s).
Proof.
  intros. unfold bus_stop. cbn [filled rx buf crc dv].
  replace (0 <? Z.of_nat (length (n :: p)))%Z with true by (cbn [length]; lia).
  rewrite rd_filled with (x := n) by reflexivity. cbn [bind].
  replace (Z.of_N n <? Z.of_nat (length (n :: p)))%Z with false by (cbn [length]; lia).
  eexists. split; reflexivity.
Qed.

Definition delivered (c : config) (f : faults) (s : bus) (p : list N) (r : res (bus * list event)) : Prop :=
  match write_request c f (dv s) p with
  | Wild => r = Wild
  | Ret (_, d, ev) => exists s', r = Ret (s', ev) /\ dv s' = d
  end.

Lemma stop_plain : forall c f s p, length p <= 256 ->
  delivered c f s p (bus_stop c f (filled s (N.of_nat (length p) :: p))).
Proof.
  intros. unfold bus_stop, delivered. cbn [filled rx buf crc dv].
  replace (0 <? Z.of_nat (length (N.of_nat (length p) :: p)))%Z with true by (cbn [length]; lia).
  rewrite rd_filled with (x := N.of_nat (length p)) by reflexivity. cbn [bind].
  replace (Z.of_N (N.of_nat (length p)) <? Z.of_nat (length (N.of_nat (length p) :: p)))%Z with true by (cbn [length]; lia).
  replace (Z.of_N (N.of_nat (length p)) + 2 <=? Z.of_nat (length (N.of_nat (length p) :: p)))%Z with false by (cbn [length]; lia).
  cbn [bind]. cbv iota. rewrite Nat2N.id. cbn [app].
  pose proof (rds_mid [N.of_nat (length p)] p (zeros (257 - length (N.of_nat (length p) :: p)))) as R.
  cbn [app length] in R. cbn [length]. rewrite R. cbn [bind].
  destruct (write_request c f (dv s) p) as [[[st d] ev]|]; cbn [bind]; auto. eexists. split; reflexivity.
Qed.

Lemma stop_pec : forall c f s p q more, length p < 255 -> length (p ++ q :: more) <= 256 ->
  bus_stop c f (filled s (N.of_nat (length p) :: p ++ q :: more)) =
  let cr := crc8_loop (crc s) (N.of_nat (length p) :: p) in
  let done d ev := Ret ({| buf := (N.of_nat (length p) :: p ++ q :: more) ++
       zeros (257 - length (N.of_nat (length p) :: p ++ q :: more)); rx := (-1)%Z; crc := cr; dv := d |}, ev) in
  if (cr =? q)%N then '(r, d, ev) <- write_request c f (dv s) p; done d ev
  else done (checksum_failure (dv s)) [].
Proof.
  intros c f s p q more L1 L2. unfold bus_stop. cbn [filled rx buf crc dv].
  set (t := N.of_nat (length p) :: p ++ q :: more).
  assert (length t = length p + 2 + length more) as LT by (unfold t; cbn [length]; rewrite app_length; cbn [length]; lia).
  replace (0 <? Z.of_nat (length t))%Z with true by lia.
  rewrite rd_filled with (x := N.of_nat (length p)) by reflexivity. cbn [bind].
  replace (Z.of_N (N.of_nat (length p)) <? Z.of_nat (length t))%Z with true by lia.
  replace (Z.of_N (N.of_nat (length p)) + 2 <=? Z.of_nat (length t))%Z with true by lia.
  rewrite Nat2N.id.
  assert (t = (N.of_nat (length p) :: p) ++ q :: more) as Et by reflexivity.
  assert (rds (t ++ zeros (257 - length t)) 0 (length p + 1) = Ret (N.of_nat (length p) :: p)) as R1.
  { rewrite Et, <- app_assoc. replace (length p + 1) with (length (N.of_nat (length p) :: p)) by (cbn [length]; lia).
    exact (rds_mid [] (N.of_nat (length p) :: p) _). }
  assert (rd (t ++ zeros (257 - length t)) (length p + 1) = Ret q) as R2.
  { apply rd_filled. rewrite Et. replace (length p + 1) with (length (N.of_nat (length p) :: p)) by (cbn [length]; lia).
    apply nth_error_mid. }
  assert (rds (t ++ zeros (257 - length t)) 1 (length p) = Ret p) as R3.
  { pose proof (rds_mid [N.of_nat (length p)] p ((q :: more) ++ zeros (257 - length t))) as R.
    rewrite <- R. f_equal. unfold t. cbn [app]. f_equal. now rewrite <- app_assoc. }
  rewrite R1. cbn [bind]. rewrite R2. cbn [bind].
  replace (length p + 1) with (length (N.of_nat (length p) :: p)) by (cbn [length]; lia).
  rewrite update_loop by (cbn [length]; lia). cbv zeta.
  destruct (_ =? q)%N; [|reflexivity]. rewrite R3. reflexivity.
Qed.

(** ** Reads *)

Lemma wrs_front : forall a l z, (length a = length l)%nat -> wrs (a ++ z) 0 l = Ret (l ++ z).
Proof.
  intros. unfold wrs. rewrite app_length. replace (_ <=? _) with true by lia. unfold splice. cbn [firstn app].
  f_equal. f_equal. rewrite Nat.add_0_l, <- H, skipn_app, skipn_all, Nat.sub_diag. reflexivity.
Qed.

Lemma transmit_answer : forall c e a x d bytes n d1, (a < 128)%N ->
  read_request c e (set_active x d) = Ret (Answer bytes n, d1) ->
  n <= length bytes <= 255 -> n < 255 ->
  exists s' l, bus_transmit c e a (opened a x d) = Ret (s', l) /\ dv s' = d1 /\ rx s' = 0%Z /\
    firstn (n + 2) l = N.of_nat n :: firstn n bytes ++
      [crc8_loop 0 ((a * 2)%N :: x :: (a * 2 + 1)%N :: N.of_nat n :: firstn n bytes)].
Proof.
  intros c e a x d bytes n d1 Ha R Ln Ln2. unfold bus_transmit. cbn [opened dv buf crc rx].
  rewrite R. cbn [bind].
  assert (wrs (zeros 257) 1 bytes = Ret (0%N :: bytes ++ zeros (256 - length bytes))) as W1.
  { unfold wrs. rewrite len_zeros. replace (_ <=? _) with true by lia. f_equal.
    unfold splice. change (firstn 1 (zeros 257)) with [0%N]. cbn [app]. f_equal. f_equal.
    unfold zeros. replace 257 with ((1 + length bytes) + (256 - length bytes)) at 1 by lia.
    rewrite repeat_app, skipn_app, repeat_length, skipn_all2 by (rewrite repeat_length; lia).
    rewrite Nat.sub_diag. reflexivity. }
  rewrite W1. cbn [bind].
  pose proof (wrs_front [0%N] [(N.of_nat n mod 256)%N] (bytes ++ zeros (256 - length bytes)) eq_refl) as W2.
  cbn [app] in W2. rewrite W2. cbn [bind].
  rewrite N.mod_small by lia.
  assert (rds (N.of_nat n :: bytes ++ zeros (256 - length bytes)) 0 (n + 1) = Ret (N.of_nat n :: firstn n bytes)) as R1.
  { pose proof (rds_mid [] (N.of_nat n :: firstn n bytes) (skipn n bytes ++ zeros (256 - length bytes))) as Q.
    cbn [app length] in Q. rewrite firstn_length_le in Q by lia. rewrite app_assoc, firstn_skipn in Q.
    replace (n + 1) with (S n) by lia. exact Q. }
  rewrite R1. cbn [bind].
  set (cr := crc8_update _ (_ :: _) _).
  assert (cr = crc8_loop 0 ((a * 2)%N :: x :: (a * 2 + 1)%N :: N.of_nat n :: firstn n bytes)) as Ecr.
  { unfold cr. replace (n + 1) with (length (N.of_nat n :: firstn n bytes)) by (cbn [length]; rewrite firstn_length_le; lia).
    rewrite update_loop by (cbn [length]; rewrite firstn_length_le; lia).
    rewrite crc_open by auto. unfold crc8_update. change (1 mod 256) with 1. cbn [firstn].
    assert (N.lor (a * 2) 1 = a * 2 + 1)%N as El.
    { rewrite N.mul_comm. destruct a; reflexivity. }
    rewrite El, N.mod_small by lia. cbn [crc8_loop]. reflexivity. }
  unfold wrs at 1. cbn [length]. rewrite app_length. rewrite len_zeros.
  replace (n + 1 + 1 <=? S (length bytes + (256 - length bytes))) with true by lia. cbn [bind].
  eexists _, _. split; [reflexivity|]. split; [reflexivity|]. split; [reflexivity|].
  rewrite Ecr. unfold splice. set (w := crc8_loop 0 _).
  assert (firstn (n + 1) (N.of_nat n :: bytes ++ zeros (256 - length bytes)) = N.of_nat n :: firstn n bytes) as F.
  { replace (n + 1) with (S n) by lia. cbn [firstn]. f_equal. rewrite firstn_app.
    replace (n - length bytes) with 0 by lia. cbn [firstn]. apply app_nil_r. }
  rewrite F. cbn [app].
  replace (n + 2) with (S (n + 1)) by lia. cbn [firstn]. f_equal.
  rewrite firstn_app, firstn_length_le by lia. rewrite firstn_all2 by (rewrite firstn_length_le; lia).
  replace (n + 1 - n) with 1 by lia. cbn [firstn app]. reflexivity.
Qed.

Lemma transmit_fail : forall c e a x d s d1, (a < 128)%N ->
  read_request c e (set_active x d) = Ret (Fail s, d1) ->
  exists s' l, bus_transmit c e a (opened a x d) = Ret (s', l) /\ dv s' = d1 /\ rx s' = 0%Z /\
    firstn 2 l = [0%N; crc8_loop 0 [(a * 2)%N; x; (a * 2 + 1)%N; 0%N]].
Proof.
  intros c e a x d s d1 Ha R. unfold bus_transmit. cbn [opened dv buf crc rx]. rewrite R. cbn [bind].
  assert (wrs (zeros 257) 0 [0%N] = Ret (zeros 257)) as W by reflexivity. rewrite W. cbn [bind].
  assert (rds (zeros 257) 0 (0 + 1) = Ret [0%N]) as R1 by reflexivity. rewrite R1. cbn [bind].
  unfold wrs at 1. rewrite len_zeros. cbn [length]. replace (_ <=? _) with true by lia. cbn [bind].
  eexists _, _. split; [reflexivity|]. split; [reflexivity|]. split; [reflexivity|].
  unfold splice. change (firstn (0 + 1) (zeros 257)) with [0%N]. cbn [app firstn].
  f_equal. f_equal. rewrite crc_open by auto. unfold crc8_update. change (1 mod 256) with 1.
  change ((0 + 1) mod 256) with 1. cbn [firstn].
  assert (N.lor (a * 2) 1 = a * 2 + 1)%N as El by (rewrite N.mul_comm; destruct a; reflexivity).
  rewrite El, N.mod_small by lia. cbn [crc8_loop]. reflexivity.
Qed.
