(** Whole messages, and all histories of bus operations. *)
From Coq Require Import List NArith ZArith Lia Bool Arith ZifyBool ZifyNat ZifyN.
From Verif Require Import Base Flash_Base FlashUpdater_Model Crc8_Model Crc8_Spec Crc8_Proofs OcpRecovery_Model OcpRecovery_Spec
  OcpRecovery_Bus_Proofs OcpRecovery_Dev_Proofs.
Import ListNotations.

(** ** Messages *)

Definition outcome_of (c : config) (s : bus) (l : list op) (w : fate) (r : res (dev * list event)) : Prop :=
  match r with
  | Wild => run c s l = Wild
  | Ret (d, ev) => exists s' outs, run c s l = Ret (s', outs ++ [Events ev]) /\ dv s' = d /\
      Forall silent outs /\ Forall (acks w) outs
  end.

Lemma map_ack_silent : forall {A} b (l : list A), Forall silent (map (fun _ => Ack b) l).
Proof. intros. apply Forall_forall. intros o H. apply in_map_iff in H. destruct H as (? & <- & _). exact I. Qed.

Lemma map_ack_true : forall {A} w (l : list A), (exists x, w = Announced x) \/ (exists x p, w = Deliver x p) \/ w = BadPec \/ w = BadLength ->
  Forall (acks w) (map (fun _ => Ack true) l).
Proof.
  intros. apply Forall_forall. intros o Ho. apply in_map_iff in Ho. destruct Ho as (? & <- & _).
  destruct H as [[y ->]|[(y & p & ->)|[->| ->]]]; cbn; auto.
Qed.

(** A known command followed by at most 257 bytes. *)
Lemma run_known : forall c s a x t f, known x -> length t <= 257 ->
  run c s (message a (x :: t) f) =
  '(s', ev) <- bus_stop c f (filled (opened a x (dv s)) t);
  Ret (s', (Quiet :: Ack true :: map (fun _ => Ack true) t) ++ [Events ev]).
Proof.
  intros. unfold message. cbn [map app]. rewrite run_open by auto. rewrite run_app, run_recv0 by auto. cbn [bind].
  cbn [run step]. destruct (bus_stop c f _) as [[? ?]|]; reflexivity.
Qed.

Lemma known_outcome : forall c s a x t f w r, known x -> length t <= 257 ->
  (exists y, w = Announced y) \/ (exists y p, w = Deliver y p) \/ w = BadPec \/ w = BadLength ->
  match r with
  | Wild => bus_stop c f (filled (opened a x (dv s)) t) = Wild
  | Ret (d, ev) => exists s', bus_stop c f (filled (opened a x (dv s)) t) = Ret (s', ev) /\ dv s' = d
  end ->
  outcome_of c s (message a (x :: t) f) w r.
Proof.
  intros c s a x t f w r K L W H. unfold outcome_of. rewrite run_known by auto.
  destruct r as [[d ev]|]; [|now rewrite H].
  destruct H as (s' & -> & D). cbn [bind]. eexists _, _. split; [reflexivity|]. split; [auto|].
  split; [constructor; [exact I|]; constructor; [exact I|]; apply map_ack_silent|].
  constructor; [|constructor].
  - destruct W as [[y ->]|[(y & p & ->)|[->| ->]]]; exact I.
  - destruct W as [[y ->]|[(y & p & ->)|[->| ->]]]; reflexivity || exact I.
  - now apply map_ack_true.
Qed.

Lemma run_message : forall c s a bs f w, (a < 128)%N -> bytes_ok bs -> frame a bs w ->
  outcome_of c s (message a bs f) w (effect c f w (dv s)).
Proof.
  intros c s a bs f w Ha Hb Fr. inversion Fr as [|x t K|x K|x t K L|x n p K L|x p K|x p q more K L1 L2 P|x p q more K L1 L2 P]; subst; clear Fr.
  - (* no bytes *)
    unfold effect, outcome_of, message. cbn [map app run step].
    destruct (stop_none c f (bus_start a s)) as (s' & R & D); [cbn; lia|]. cbn [bind]. rewrite R. cbn [bind].
    exists s', [Quiet]. split; [reflexivity|]. split; [exact D|]. split; repeat constructor.
  - (* unknown code *)
    unfold effect, outcome_of, message. cbn [map app run step bind]. unfold bus_byte at 1, bus_start. cbn [rx crc dv buf].
    change (-1 <=? -2)%Z with false. change (-1 =? -1)%Z with true. cbv iota.
    unfold start_new_command. rewrite unknown_test by auto. cbn [bind].
    rewrite run_app, run_nacked by (cbn [rx]; lia). cbn [bind run step].
    match goal with |- context [bus_stop c f ?b] => destruct (stop_none c f b) as (s' & R & D); [cbn; lia|] end.
    rewrite R. cbn [bind]. eexists _, (Quiet :: Ack false :: map (fun _ => Ack false) t).
    split; [reflexivity|]. split; [exact D|]. split.
    + constructor; [exact I|]. constructor; [exact I|]. apply map_ack_silent.
    + constructor; [exact I|]. constructor; [reflexivity|]. apply Forall_forall. intros o Ho.
      apply in_map_iff in Ho. destruct Ho as (? & <- & _). reflexivity.
  - (* code only *)
    apply known_outcome; [auto|cbn; lia|eauto|]. cbn [effect].
    destruct (stop_none c f (filled (opened a x (dv s)) [])) as (s' & R & D); [cbn; lia|]. eauto.
  - (* too long *)
    unfold effect, outcome_of, message. cbn [map app]. rewrite run_open by auto. rewrite run_app.
    destruct (run_overflow c a x (dv s) t L) as (s1 & outs & R & X & D & A). rewrite R. cbn [bind run step].
    destruct (stop_none c f s1) as (s' & R2 & D2); [lia|]. rewrite R2. cbn [bind].
    eexists _, (Quiet :: Ack true :: outs). split; [reflexivity|]. split; [rewrite D2, D; reflexivity|]. split.
    + constructor; [exact I|]. constructor; [exact I|]. eapply Forall_impl; [|exact A]. intros o [b ->]. exact I.
    + constructor; [exact I|]. constructor; [exact I|]. eapply Forall_impl; [|exact A]. intros o [b ->]. exact I.
  - (* too short *)
    inversion Hb as [|? ? _ Hb1]; subst. inversion Hb1 as [|? ? Hn _]; subst. unfold byte_ok in Hn.
    apply known_outcome; [auto|cbn [length]; lia|eauto|]. cbn [effect].
    destruct (stop_short c f (opened a x (dv s)) n p L ltac:(lia)) as (s' & R & D). eauto.
  - (* without packet error code *)
    inversion Hb as [|? ? _ Hb1]; subst. inversion Hb1 as [|? ? Hn _]; subst. unfold byte_ok in Hn.
    apply known_outcome; [auto|cbn [length]; lia|eauto|]. cbn [effect].
    pose proof (stop_plain c f (opened a x (dv s)) p ltac:(lia)) as S. unfold delivered in S. cbn [opened dv] in S.
    destruct (write_request c f (set_active x (dv s)) p) as [[[sc d] ev]|]; exact S.
  - (* correct packet error code *)
    apply known_outcome; [auto|cbn [length]; lia|eauto|]. cbn [effect].
    rewrite stop_pec by auto. cbn zeta. cbn [opened crc dv]. rewrite crc_open by auto.
    rewrite <- crc8_loop_app. cbn [app].
    assert (bytes_ok ((a * 2)%N :: x :: N.of_nat (length p) :: p)) as Hok.
    { inversion Hb as [|? ? Hx Hb1]; subst. inversion Hb1 as [|? ? Hn Hb2]; subst. apply Forall_app in Hb2. destruct Hb2 as [Hp _].
      constructor; [unfold byte_ok; lia|]. constructor; [auto|]. constructor; auto. }
    apply (pec_loop _ q Hok) in P. rewrite <- P, N.eqb_refl.
    destruct (write_request c f (set_active x (dv s)) p) as [[[sc d] ev]|]; cbn [bind]; [|reflexivity].
    eexists. split; reflexivity.
  - (* wrong packet error code *)
    apply known_outcome; [auto|cbn [length]; lia|eauto|]. cbn [effect].
    rewrite stop_pec by auto. cbn zeta. cbn [opened crc dv]. rewrite crc_open by auto.
    rewrite <- crc8_loop_app. cbn [app].
    assert (bytes_ok ((a * 2)%N :: x :: N.of_nat (length p) :: p)) as Hok.
    { inversion Hb as [|? ? Hx Hb1]; subst. inversion Hb1 as [|? ? Hn Hb2]; subst. apply Forall_app in Hb2. destruct Hb2 as [Hp _].
      constructor; [unfold byte_ok; lia|]. constructor; [auto|]. constructor; auto. }
    rewrite (pec_loop _ q Hok) in P. destruct (N.eqb_spec (crc8_loop 0 ((a * 2)%N :: x :: N.of_nat (length p) :: p)) q) as [E|E].
    + symmetry in E. contradiction.
    + eexists. split; reflexivity.
Qed.

(** Every sequence of bytes is covered, unless it announces 255 bytes. *)
Lemma frame_total : forall a bs, (nth 1 bs 0 < 255)%N -> bytes_ok bs -> (a < 128)%N -> exists w, frame a bs w.
Proof.
  intros a bs H Hb Ha. destruct bs as [|x t]; [eexists; constructor|].
  assert (known x \/ ~ known x) as [K|K] by (unfold known; lia); [|eexists; now apply F_code].
  destruct t as [|n p]; [eexists; now constructor|]. cbn [nth] in H.
  destruct (le_lt_dec (length (n :: p)) 257) as [L|L]; [|eexists; now apply F_long].
  cbn [length] in L.
  destruct (N.lt_ge_cases (N.of_nat (length p)) n) as [L2|L2]; [eexists; now apply F_short|].
  assert (exists p1 p2, p = p1 ++ p2 /\ N.of_nat (length p1) = n) as (p1 & p2 & -> & <-).
  { exists (firstn (N.to_nat n) p), (skipn (N.to_nat n) p). rewrite firstn_skipn, firstn_length. split; [auto|lia]. }
  destruct p2 as [|q more].
  - rewrite app_nil_r. eexists. now apply F_plain.
  - assert (bytes_ok ((a * 2)%N :: x :: N.of_nat (length p1) :: p1)) as Hok.
    { inversion Hb as [|? ? Hx Hb1]; subst. inversion Hb1 as [|? ? Hn Hb2]; subst. apply Forall_app in Hb2.
      constructor; [unfold byte_ok; lia|]. constructor; [auto|]. constructor; [auto|]. apply Hb2. }
    destruct (N.eq_dec q (crc8_loop 0 ((a * 2)%N :: x :: N.of_nat (length p1) :: p1))) as [Q|Q].
    + exists (Deliver x p1). apply F_pec; auto; [lia|lia|]. now apply pec_loop.
    + exists BadPec. apply F_bad; auto; [lia|lia|]. intros P. apply Q. now apply pec_loop in P.
Qed.

(** ** Block reads *)

Lemma run_query : forall c s a x e f, (a < 128)%N -> byte_ok x -> known x ->
  match read_request c e (set_active x (dv s)) with
  | Wild => run c s (query a x e f) = Wild
  | Ret (Answer bytes n, d) => n <= length bytes <= 255 -> n < 255 -> bytes_ok (firstn n bytes) ->
    exists s' l q, run c s (query a x e f) = Ret (s', [Quiet; Ack true; Sent l; Events []]) /\ dv s' = d /\
      firstn (n + 2) l = N.of_nat n :: firstn n bytes ++ [q] /\
      pec ((a * 2)%N :: x :: (a * 2 + 1)%N :: N.of_nat n :: firstn n bytes) q
  | Ret (Fail _, d) =>
    exists s' l q, run c s (query a x e f) = Ret (s', [Quiet; Ack true; Sent l; Events []]) /\ dv s' = d /\
      firstn 2 l = [0%N; q] /\ pec [(a * 2)%N; x; (a * 2 + 1)%N; 0%N] q
  end.
Proof.
  intros c s a x e f Ha Hx K. destruct (read_request c e (set_active x (dv s))) as [[[bytes n|sc] d]|] eqn:R.
  - intros Ln Ln2 Hb. unfold query. rewrite run_open by auto. cbn [run step].
    destruct (transmit_answer c e a x (dv s) bytes n d Ha R Ln Ln2) as (s1 & l & T & D & X & F). rewrite T. cbn [bind].
    destruct (stop_none c f s1) as (s2 & S & D2); [lia|]. rewrite S. cbn [bind].
    eexists _, _, _. split; [reflexivity|]. split; [congruence|]. split; [exact F|].
    apply pec_loop; [|reflexivity]. unfold byte_ok in *.
    constructor; [unfold byte_ok; lia|]. constructor; [auto|]. constructor; [unfold byte_ok; lia|]. constructor; [unfold byte_ok; lia|auto].
  - unfold query. rewrite run_open by auto. cbn [run step].
    destruct (transmit_fail c e a x (dv s) sc d Ha R) as (s1 & l & T & D & X & F). rewrite T. cbn [bind].
    destruct (stop_none c f s1) as (s2 & S & D2); [lia|]. rewrite S. cbn [bind].
    eexists _, _, _. split; [reflexivity|]. split; [congruence|]. split; [exact F|].
    apply pec_loop; [|reflexivity].
    repeat (constructor; [unfold byte_ok in *; lia|]). constructor.
  - unfold query. rewrite run_open by auto. cbn [run step]. unfold bus_transmit. cbn [opened dv]. rewrite R. reflexivity.
Qed.

(** ** Initialisation *)

Lemma init_loop_ok : forall c first l i s s', init_loop c first i l s = Ret (IOk, s') ->
  Forall (fun r => writable r -> (r_len r mod 4 = 0 /\ 0 < r_len r)%N) l /\
  mem s' = mem s /\ flash s' = flash s /\ (forall j, j < i -> erase_at s' j = erase_at s j) /\
  (forall k r base, nth_error l k = Some r -> r_back r = Nor base ->
     exists f0 base0, first = Some f0 /\ r_back f0 = Nor base0 /\ erase_at s' (i + k) = base0).
Proof.
  intros c first l. induction l as [|r t IH]; intros i s s' H; cbn [init_loop] in H.
  - injection H as <-. repeat split; auto. intros [|k]; discriminate.
  - set (w := ((N.ldiff (r_type r) 8 =? REGION_CODE) || (N.ldiff (r_type r) 8 =? REGION_RW))%N) in *.
    assert (writable r -> w = true) as Hw by (intros [E|E]; unfold w; rewrite E; reflexivity).
    destruct (w && negb (r_len r mod 4 =? 0)%N) eqn:E1; [discriminate|].
    destruct (w && (r_len r =? 0)%N) eqn:E2; [discriminate|].
    assert (writable r -> (r_len r mod 4 = 0 /\ 0 < r_len r)%N) as A.
    { intros W. rewrite (Hw W) in E1, E2. cbn [andb] in E1, E2. split; lia. }
    destruct (r_back r) as [| |b] eqn:Bk.
    + destruct (IH _ _ _ H) as (F & M & Fl & E & P). split; [auto|]. split; [exact M|]. split; [exact Fl|].
      split; [intros j Hj; apply E; lia|].
      intros [|k] r' base Hn Hb; cbn in Hn; [injection Hn as <-; congruence|].
      rewrite <- plus_n_Sm. exact (P k r' base Hn Hb).
    + destruct (IH _ _ _ H) as (F & M & Fl & E & P). split; [auto|]. split; [exact M|]. split; [exact Fl|].
      split; [intros j Hj; apply E; lia|].
      intros [|k] r' base Hn Hb; cbn in Hn; [injection Hn as <-; congruence|].
      rewrite <- plus_n_Sm. exact (P k r' base Hn Hb).
    + destruct first as [f0|]; [|discriminate]. destruct (r_back f0) as [| |b0] eqn:B0; try discriminate.
      destruct (flash_size c <? b0 + r_len f0)%N; [discriminate|].
      destruct (IH _ _ _ H) as (F & M & Fl & E & P). split; [auto|]. split; [exact M|]. split; [exact Fl|]. split.
      { intros j Hj. rewrite E by lia. cbn. destruct (Nat.eqb_spec j i); [lia|auto]. }
      intros [|k] r' base Hn Hb; cbn in Hn.
      * exists f0, b0. split; [auto|]. split; [auto|]. rewrite Nat.add_0_r, E by lia. cbn. now rewrite Nat.eqb_refl.
      * rewrite <- plus_n_Sm. exact (P k r' base Hn Hb).
Qed.

Lemma init_good : forall c s0 d, sane c -> one_flash c -> fits c s0 -> dev_init c s0 = Ret (IOk, d) ->
  aligned_rw c /\ good c d /\ kept c s0 (st d).
Proof.
  intros c s0 d (HF & HS & _ & SR) OF FI H. unfold dev_init in H.
  destruct (init_loop c _ 0 (regions c) s0) as [[r s']|] eqn:E; [|discriminate]. cbn [bind] in H. injection H as -> <-.
  destruct (init_loop_ok _ _ _ _ _ _ E) as (A & M & Fl & _ & P). cbn [st set_st].
  assert (kept c s0 s') as K by (unfold kept; rewrite M, Fl; repeat split).
  split; [|split; [|exact K]].
  - intros i r Hn W. rewrite Forall_forall in A. exact (A r (nth_error_In _ _ Hn) W).
  - split; [|split; [|split; reflexivity]].
    + intros i r Hn B. cbn [st set_st]. rewrite M. exact (FI i r Hn B).
    + intros i r Hn base Hb. cbn [st set_st]. destruct (P i r base Hn Hb) as (f0 & b0 & E0 & B0 & Er).
      cbn in Er. rewrite Er. pose proof (OF _ _ _ Hn Hb). subst i.
      assert (f0 = r) by (unfold hd_error in E0; destruct (regions c); cbn in Hn; congruence). subst f0.
      rewrite Hb in B0. injection B0 as <-.
      rewrite Forall_forall in SR. destruct (SR r (nth_error_In _ _ Hn)) as [_ Sr]. rewrite Hb in Sr. split; [lia|apply Sr].
Qed.

(** ** All histories *)

Definition bus_ok (c : config) (s0 : store) (b : bus) : Prop :=
  length (buf b) = 257 /\ byte_ok (nth 0 (buf b) 0%N) /\ (rx b <= 257)%Z /\
  good c (dv b) /\ kept c s0 (st (dv b)).

Definition event_ok (c : config) (o : output) : Prop :=
  match o with Events l => Forall (allowed c) l | _ => True end.

Lemma wrs_ok : forall b i l, i + length l <= length b ->
  exists b', wrs b i l = Ret b' /\ length b' = length b /\ (1 <= i -> nth 0 b' 0%N = nth 0 b 0%N).
Proof.
  intros. unfold wrs. replace (i + length l <=? length b) with true by lia. eexists. split; [reflexivity|].
  split; [apply length_splice; lia|]. intros. apply nth_splice_out; lia.
Qed.

Lemma rds_ok : forall b i n, i + n <= length b -> exists l, rds b i n = Ret l.
Proof. intros. unfold rds. replace (i + n <=? length b) with true by lia. eauto. Qed.

Lemma rd_ok : forall b i, i < length b -> rd b i = Ret (nth i b 0%N).
Proof. intros. unfold rd. now rewrite (nth_error_nth' b 0%N H). Qed.

Lemma step_safe : forall c s0 b o, sane c -> aligned_rw c -> bus_ok c s0 b -> fair o ->
  exists b' out, step c b o = Ret (b', out) /\ bus_ok c s0 b' /\ event_ok c out.
Proof.
  intros c s0 b o SA AL (B1 & B2 & B3 & G & K) FO. destruct o as [a|x|f|a e]; cbn [step].
  - eexists _, _. split; [reflexivity|]. split; [|exact I]. unfold bus_ok, bus_start. cbn [buf rx dv].
    split; [apply repeat_length|]. split; [reflexivity|]. split; [lia|]. auto.
  - unfold bus_byte. destruct (rx b <=? -2)%Z eqn:E1.
    { eexists _, _. split; [reflexivity|]. split; [|exact I]. exact (conj B1 (conj B2 (conj B3 (conj G K)))). }
    destruct (rx b =? -1)%Z eqn:E2.
    { unfold start_new_command. destruct ((x <? CMD_PROT_CAP) || (CMD_VENDOR <? x))%N; cbn [bind];
      (eexists _, _; split; [reflexivity|]; split; [|exact I]; unfold bus_ok; cbn [buf rx dv];
       split; [auto|]; split; [auto|]; split; [lia|]; split; [apply (good_ctl c (dv b)); cbn; auto; apply G|exact K]). }
    destruct (rx b <? 257)%Z eqn:E3.
    { destruct (wrs_ok (buf b) (Z.to_nat (rx b)) [x]) as (b' & W & L & F); [cbn [length]; lia|]. rewrite W. cbn [bind].
      eexists _, _. split; [reflexivity|]. split; [|exact I]. unfold bus_ok. cbn [buf rx dv].
      split; [lia|]. split; [|split; [lia|auto]].
      destruct (Nat.eq_dec (Z.to_nat (rx b)) 0) as [Z|Z]; [|rewrite F by lia; auto].
      rewrite Z in W. unfold wrs in W. destruct (0 + length [x] <=? length (buf b)); [|discriminate]. injection W as <-.
      cbn. exact FO. }
    cbn [bind]. eexists _, _. split; [reflexivity|]. split; [|exact I]. unfold bus_ok. cbn [buf rx dv].
    split; [auto|]. split; [auto|]. split; [lia|]. split; [|exact K]. apply (good_ctl c (dv b)); cbn; auto; apply G.
  - unfold bus_stop. destruct (0 <? rx b)%Z eqn:E0.
    2:{ cbn [bind]. eexists _, _. split; [reflexivity|]. split; [|constructor]. unfold bus_ok. cbn [buf rx dv].
        split; [auto|]. split; [auto|]. split; [lia|]. auto. }
    rewrite rd_ok by lia. cbn [bind]. unfold byte_ok in B2. set (n := nth 0 (buf b) 0%N) in *.
    destruct (Z.of_N n <? rx b)%Z eqn:E1.
    2:{ cbn [bind]. eexists _, _. split; [reflexivity|]. split; [|constructor]. unfold bus_ok. cbn [buf rx dv].
        split; [auto|]. split; [auto|]. split; [lia|]. split; [|exact K]. apply (good_ctl c (dv b)); cbn; auto; apply G. }
    match goal with |- context [bind (if (Z.of_N n + 2 <=? rx b)%Z then ?A else ?B) _] =>
      assert (exists cr ok, (if (Z.of_N n + 2 <=? rx b)%Z then A else B) = Ret (cr, ok)) as (cr & ok & EC) end.
    { destruct (Z.of_N n + 2 <=? rx b)%Z eqn:E2; [|eauto].
      destruct (rds_ok (buf b) 0 (N.to_nat n + 1)) as [l ->]; [lia|]. rewrite rd_ok by lia. cbn [bind]. eauto. }
    rewrite EC. cbn [bind]. destruct ok.
    + destruct (rds_ok (buf b) 1 (N.to_nat n)) as [l ->]; [lia|]. cbn [bind].
      destruct (write_request_safe c f l (dv b) SA AL G) as (sc & d' & ev & R & K' & G' & _ & A & _). rewrite R. cbn [bind].
      eexists _, _. split; [reflexivity|]. split; [|exact A]. unfold bus_ok. cbn [buf rx dv].
      split; [auto|]. split; [auto|]. split; [lia|]. split; [auto|]. eapply kept_trans; eauto.
    + cbn [bind]. eexists _, _. split; [reflexivity|]. split; [|constructor]. unfold bus_ok. cbn [buf rx dv].
      split; [auto|]. split; [auto|]. split; [lia|]. split; [|exact K]. apply (good_ctl c (dv b)); cbn; auto; apply G.
  - destruct FO as [HI HD]. unfold bus_transmit.
    destruct (read_request_safe c e (dv b) SA G HI HD) as (r & d' & R & E & G' & A). rewrite R. cbn [bind].
    assert (exists b' n, match r with
      | Answer bytes n => b0 <- wrs (buf b) 1 bytes; b0 <- wrs b0 0 [(N.of_nat n mod 256)%N]; Ret (b0, n)
      | Fail _ => b0 <- wrs (buf b) 0 [0%N]; Ret (b0, 0) end = Ret (b', n) /\ length b' = 257 /\ n <= 255 /\ byte_ok (nth 0 b' 0%N))
      as (b' & n & EB & L & Ln & B0).
    { destruct r as [bytes n|sc].
      - destruct A as [A1 A2]. destruct (wrs_ok (buf b) 1 bytes) as (x1 & W1 & L1 & _); [lia|]. rewrite W1. cbn [bind].
        destruct (wrs_ok x1 0 [(N.of_nat n mod 256)%N]) as (x2 & W2 & L2 & _); [cbn [length]; lia|]. rewrite W2. cbn [bind].
        eexists _, _. split; [reflexivity|]. split; [lia|]. split; [lia|].
        unfold wrs in W2. destruct (_ <=? _); [|discriminate]. injection W2 as <-. cbn. apply N.mod_lt. lia.
      - destruct (wrs_ok (buf b) 0 [0%N]) as (x1 & W1 & L1 & _); [cbn [length]; lia|]. rewrite W1. cbn [bind].
        eexists _, _. split; [reflexivity|]. split; [lia|]. split; [lia|].
        unfold wrs in W1. destruct (_ <=? _); [|discriminate]. injection W1 as <-. reflexivity. }
    rewrite EB. cbn [bind]. destruct (rds_ok b' 0 (n + 1)) as [l ->]; [lia|]. cbn [bind].
    match goal with |- context [wrs b' (n + 1) ?v] => destruct (wrs_ok b' (n + 1) v) as (b2 & W & L2 & F) end; [cbn [length]; lia|].
    rewrite W. cbn [bind]. eexists _, _. split; [reflexivity|]. split; [|exact I]. unfold bus_ok. cbn [buf rx dv].
    split; [lia|]. split; [rewrite F by lia; exact B0|]. split; [auto|]. split; [auto|]. now rewrite E.
Qed.

Lemma run_safe : forall c s0 l b, sane c -> aligned_rw c -> bus_ok c s0 b -> Forall fair l ->
  exists b' outs, run c b l = Ret (b', outs) /\ bus_ok c s0 b' /\ Forall (event_ok c) outs.
Proof.
  intros c s0 l. induction l as [|o t IH]; intros b SA AL B FL; cbn [run]; [eexists _, _; split; [reflexivity|]; auto|].
  inversion FL; subst. destruct (step_safe c s0 b o SA AL B H1) as (b1 & x & S & B' & E). rewrite S. cbn [bind].
  destruct (IH b1 SA AL B' H2) as (b2 & xs & R & B2 & E2). rewrite R. cbn [bind]. eexists _, _. split; [reflexivity|]. auto.
Qed.

Lemma bus_init_ok : forall c s0 d, good c d -> kept c s0 (st d) -> bus_ok c s0 (bus_init d).
Proof.
  intros. unfold bus_ok, bus_init. cbn [buf rx dv]. split; [apply repeat_length|]. split; [reflexivity|]. split; [lia|]. auto.
Qed.
