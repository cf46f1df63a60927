(** Accesses, headers and calls of the TPM storage. *)
From Coq Require Import List NArith Bool Arith Lia.
From Verif Require Import Base OcpRecovery_Transfer_Proofs Tpm_Model Tpm_Spec.
Import ListNotations.
Local Open Scope N_scope.

(** ** Headers *)

Lemma le_value_app : forall a b, le_value (a ++ b) = le_value a + 256 ^ N.of_nat (length a) * le_value b.
Proof.
  induction a as [|x a IH]; intros b; cbn [app le_value length]; [change (256 ^ N.of_nat 0) with 1; lia|].
  rewrite IH, Nat2N.inj_succ, N.pow_succ_r'. lia.
Qed.

Lemma le64_value : forall x, x < 2 ^ 64 -> le_value (le64 x) = x.
Proof.
  intros x H. unfold le64. rewrite le_value_app. rewrite !le32_value.
  - change (256 ^ N.of_nat (length (le32 (x mod 2 ^ 32)))) with (2 ^ 32). pose proof (N.div_mod x (2 ^ 32) ltac:(lia)). lia.
  - apply N.div_lt_upper_bound; [lia|]. exact H.
  - apply N.mod_lt. lia.
Qed.

Lemma long13 : forall b : list N, (13 <= length b)%nat -> exists a0 a1 a2 a3 a4 a5 a6 a7 a8 a9 a10 a11 a12 t,
  b = a0 :: a1 :: a2 :: a3 :: a4 :: a5 :: a6 :: a7 :: a8 :: a9 :: a10 :: a11 :: a12 :: t.
Proof.
  intros b L. do 13 (destruct b as [|? b]; [cbn in L; lia|]). repeat eexists.
Qed.

Lemma le64_list : forall x, exists a b c d e f g h, le64 x = [a; b; c; d; e; f; g; h].
Proof. intros. unfold le64, le32. cbn [app]. repeat eexists. Qed.

Lemma bump_ok : forall b, (13 <= length b)%nat -> length (bump b) = length b /\ magic (bump b) = magic b /\
  counter (bump b) = (counter b + 1) mod 2 ^ 64 /\ clear (bump b) = clear b.
Proof.
  intros b L. assert (counter (bump b) = (counter b + 1) mod 2 ^ 64) as C.
  { unfold bump at 1. unfold counter at 1. destruct (le64_list ((counter b + 1) mod 2 ^ 64)) as (x & y & z & u & v & w & p & q & E).
    rewrite <- (le64_value ((counter b + 1) mod 2 ^ 64)) at 2 by (apply N.mod_lt; lia). rewrite E.
    destruct (long13 b L) as (?&?&?&?&?&?&?&?&?&?&?&?&?&t&->). reflexivity. }
  rewrite C. unfold bump. destruct (le64_list ((counter b + 1) mod 2 ^ 64)) as (x & y & z & u & v & w & p & q & E). rewrite E.
  destruct (long13 b L) as (?&?&?&?&?&?&?&?&?&?&?&?&?&t&->). repeat split; reflexivity.
Qed.

Lemma flag_ok : forall b, (13 <= length b)%nat -> length (flag b) = length b /\ magic (flag b) = magic b /\
  counter (flag b) = counter b /\ clear (flag b) = 1.
Proof.
  intros b L. unfold flag. destruct (long13 b L) as (?&?&?&?&?&?&?&?&?&?&?&?&?&t&->). repeat split; reflexivity.
Qed.

Lemma fresh_ok : forall c, usable c -> length (fresh c) = seg c /\ valid (fresh c) /\ counter (fresh c) = 0 /\ clear (fresh c) = 0.
Proof.
  intros c (L & _). unfold fresh, valid. remember (seg c) as n. clear Heqn c.
  assert (exists k, n = (13 + k)%nat) as [k ->] by (exists (n - 13)%nat; lia).
  split; [|repeat split; reflexivity]. change (length (repeat 0 (13 + k)) = (13 + k)%nat). apply repeat_length.
Qed.

(** ** Accesses *)

Lemma put_same : forall f i v, put f i v i = v.
Proof. intros. unfold put. now rewrite Nat.eqb_refl. Qed.
Lemma put_other : forall f i j v, j <> i -> put f i v j = f j.
Proof. intros. unfold put. destruct (Nat.eqb_spec j i); [contradiction|reflexivity]. Qed.

Lemma fwrite_ok : forall c E id d s r s', fwrite c E id d s = (r, s') ->
  buffer s' = buffer s /\ (forall i, i <> id -> store s' i = store s i) /\
  (store s' id = store s id \/ store s' id = Some d \/ (store s' id = None /\ f_write (E (tm s)) = Lost)) /\
  (r = true -> store s' id = Some d /\ f_write (E (tm s)) = Written) /\ (f_write (E (tm s)) = Kept -> store s' id = store s id /\ r = false) /\
  ((id < nb c)%nat -> (length d <= limit c)%nat -> tm s' = S (tm s) /\ (f_write (E (tm s)) = Written -> r = true)).
Proof.
  intros c E id d s r s' H. unfold fwrite in H.
  destruct (Nat.ltb id (nb c) && Nat.leb (length d) (limit c)) eqn:B.
  - destruct (f_write (E (tm s))) eqn:F; injection H as <- <-; cbn [store buffer tm]; rewrite put_same;
    (split; [reflexivity|]); (split; [intros; now apply put_other|]); (split; [auto|]); (split; [intros; try discriminate; auto|]);
    (split; [intros; try discriminate; auto|]); intros; split; auto; discriminate.
  - injection H as <- <-. split; [auto|]. split; [auto|]. split; [auto|]. split; [discriminate|]. split; [auto|].
    intros A D. apply andb_false_iff in B. destruct B as [B|B]; [apply Nat.ltb_ge in B|apply Nat.leb_gt in B]; lia.
Qed.

Lemma erase_loop_ok : forall c E id ok s r s', (id < nb c)%nat -> (length (buffer s) <= limit c)%nat ->
  erase_loop c E id ok s = (r, s') ->
  tm s' = (tm s + id)%nat /\ buffer s' = buffer s /\ (forall i, i = O \/ (id < i)%nat -> store s' i = store s i) /\
  (r = true -> ok = true /\ forall i, (0 < i <= id)%nat -> store s' i = Some (buffer s)) /\
  ((forall k, (tm s <= k < tm s + id)%nat -> f_write (E k) = Written) -> r = ok /\ forall i, (0 < i <= id)%nat -> store s' i = Some (buffer s)).
Proof.
  induction id as [|id IH]; intros ok s r s' N1 L H; cbn [erase_loop] in H.
  - injection H as <- <-. split; [lia|]. split; [auto|]. split; [auto|]. split; [intros ->|]; split; auto; lia.
  - destruct (fwrite c E (S id) (buffer s) s) as [r1 s1] eqn:W. apply fwrite_ok in W. destruct W as (B1 & O1 & _ & R1 & _ & T1).
    destruct (T1 N1 L) as [T2 T3].
    apply IH in H; [|lia|now rewrite B1]. destruct H as (T & B & O & R & A). rewrite B1 in *. rewrite T2 in *.
    split; [lia|]. split; [auto|]. split; [intros i Hi; rewrite O by lia; apply O1; lia|]. split.
    + intros Rr. destruct (R Rr) as [Ok Al]. apply andb_true_iff in Ok. destruct Ok as [-> Ok]. split; [reflexivity|].
      intros i Hi. destruct (Nat.eq_dec i (S id)) as [->|D]; [rewrite O by lia; now apply R1|apply Al; lia].
    + intros K. assert (r1 = true) as -> by (apply T3, K; lia). destruct A as [A1 A2]; [intros k Hk; apply K; lia|].
      rewrite andb_true_r in A1. split; [exact A1|]. intros i Hi.
      destruct (Nat.eq_dec i (S id)) as [->|D]; [rewrite O by lia; now apply R1|apply A2; lia].
Qed.

Lemma splice_whole : forall (l d : list N), length d = length l -> splice l 0 d = d.
Proof. intros l d H. unfold splice. cbn [firstn app Nat.add]. rewrite H, skipn_all. apply app_nil_r. Qed.

(** Re-initialising the header without a clear. *)
Lemma reinit_ok : forall c E w s r s', usable c -> init_header c E false w s = (r, s') ->
  buffer s' = fresh c /\ (forall i, i <> O -> store s' i = store s i) /\
  (w = false -> r = true /\ store s' = store s /\ tm s' = tm s) /\
  (w = true -> (store s' O = store s O \/ store s' O = Some (fresh c) \/ (store s' O = None /\ f_write (E (tm s)) = Lost)) /\
     (r = true -> store s' O = Some (fresh c)) /\ (f_write (E (tm s)) = Kept -> store s' O = store s O /\ r = false) /\
     tm s' = S (tm s) /\ (f_write (E (tm s)) = Written -> r = true)).
Proof.
  intros c E w s r s' U H. unfold init_header in H. destruct w.
  - cbn [buffer with_buffer] in H. destruct (fwrite c E 0 (fresh c) (with_buffer (fresh c) s)) as [r1 s1] eqn:W. injection H as <- <-.
    apply fwrite_ok in W. cbn [buffer store tm with_buffer] in W. destruct W as (B & O & V & R & K & T).
    destruct (fresh_ok c U) as (LF & _). destruct U as (_ & U2 & U3). destruct T as [T1 T2]; [lia|lia|].
    split; [auto|]. split; [auto|]. split; [discriminate|]. intros _.
    split; [exact V|]. split; [intros Q; destruct r1; [apply R; auto|discriminate]|]. split; [intros Q; destruct (K Q) as [K1 ->]; auto|].
    split; [auto|]. intros Q. now rewrite T2.
  - injection H as <- <-. cbn [buffer store tm with_buffer]. split; [auto|]. split; [auto|]. split; [auto|]. discriminate.
Qed.

(** Reading the header: either what is stored, or a new one that is written if asked for. *)
Lemma read_header_ok : forall c E init w s r s', usable c -> sized c s -> read_header c E init w s = (r, s') ->
  length (buffer s') = seg c /\ (forall i, i <> O -> store s' i = store s i) /\
  ((exists b, store s O = Some b /\ valid b /\ f_read (E (tm s)) = true /\ r = true /\ buffer s' = b /\ store s' = store s /\ tm s' = S (tm s)) \/
   (((forall b, store s O = Some b -> ~ valid b) \/ f_read (E (tm s)) = false) /\
    (init = false -> r = false /\ store s' = store s) /\
    (init = true -> buffer s' = fresh c /\ (w = false -> r = true /\ store s' = store s /\ tm s' = S (tm s)) /\
      (w = true -> (store s' O = store s O \/ store s' O = Some (fresh c) \/ (store s' O = None /\ f_write (E (S (tm s))) = Lost)) /\
        (r = true -> store s' O = Some (fresh c)) /\ (f_write (E (S (tm s))) = Kept -> store s' O = store s O /\ r = false) /\
        (f_write (E (S (tm s))) = Written -> r = true))))).
Proof.
  intros c E init w s r s' U [SB SS] H. unfold read_header, fread in H. pose proof U as (U1 & U2 & U3).
  apply Nat.ltb_lt in U3. rewrite U3 in H.
  set (s1 := {| store := store s; buffer := buffer s; tm := S (tm s) |}) in *.
  assert (forall s2, length (buffer s2) = seg c -> store s2 = store s -> tm s2 = S (tm s) ->
    ((forall b, store s O = Some b -> ~ valid b) \/ f_read (E (tm s)) = false) ->
    (if init then init_header c E false w s2 else (false, s2)) = (r, s') ->
    length (buffer s') = seg c /\ (forall i, i <> O -> store s' i = store s i) /\
    (((forall b, store s O = Some b -> ~ valid b) \/ f_read (E (tm s)) = false) /\
     (init = false -> r = false /\ store s' = store s) /\
     (init = true -> buffer s' = fresh c /\ (w = false -> r = true /\ store s' = store s /\ tm s' = S (tm s)) /\
      (w = true -> (store s' O = store s O \/ store s' O = Some (fresh c) \/ (store s' O = None /\ f_write (E (S (tm s))) = Lost)) /\
        (r = true -> store s' O = Some (fresh c)) /\ (f_write (E (S (tm s))) = Kept -> store s' O = store s O /\ r = false) /\
        (f_write (E (S (tm s))) = Written -> r = true))))) as REI.
  { intros s2 L2 E2 T2 WHY K. destruct init.
    - apply reinit_ok in K; [|exact U]. destruct K as (K1 & K2 & K3 & K4). rewrite E2, T2 in *.
      destruct (fresh_ok c U) as (LF & _).
      split; [now rewrite K1|]. split; [intros i Hi; rewrite K2, ?E2; auto|]. split; [exact WHY|]. split; [discriminate|].
      intros _. split; [exact K1|]. split; [exact K3|]. intros W. destruct (K4 W) as (K5 & K6 & K7 & _ & K8). auto.
    - injection K as <- <-. split; [auto|]. split; [intros; now rewrite E2|]. split; [exact WHY|]. split; [auto|]. discriminate. }
  destruct (f_read (E (tm s))) eqn:F.
  - destruct (store s 0%nat) as [b|] eqn:S0.
    + pose proof (SS b eq_refl) as LB.
      assert (splice (buffer s1) 0 (firstn (seg c) b) = b) as SP.
      { rewrite <- LB, firstn_all. apply splice_whole. cbn. congruence. }
      rewrite SP in H. cbn [buffer with_buffer] in H. destruct (N.eqb_spec (magic b) tpm_magic) as [M|M].
      * injection H as <- <-. split; [exact LB|]. split; [auto|]. left. exists b. repeat (split; [auto|]). auto.
      * destruct (REI (with_buffer b s1)) as (A1 & A2 & A3); auto.
        { left. intros b' Hb. injection Hb as <-. exact M. }
    + destruct (REI s1) as (A1 & A2 & A3); auto. left. discriminate.
  - destruct (REI s1) as (A1 & A2 & A3); auto.
Qed.

(** A clear. *)
Lemma clear_ok : forall c E s r s', usable c -> init_header c E true true s = (r, s') ->
  buffer s' = fresh c /\ (forall i, (nb c <= i)%nat -> i <> O -> store s' i = store s i) /\
  (store s' O = store s O \/ store s' O = Some (fresh c) \/ store s' O = None) /\
  (r = true -> store s' O = Some (fresh c) /\ forall i, (0 < i < nb c)%nat -> store s' i = Some (blank c)) /\
  ((forall k, (tm s <= k < tm s + nb c)%nat -> f_write (E k) = Written) ->
     r = true /\ store s' O = Some (fresh c) /\ forall i, (0 < i < nb c)%nat -> store s' i = Some (blank c)) /\
  (f_write (E (tm s + nb c - 1)%nat) = Kept -> store s' O = store s O).
Proof.
  intros c E s r s' U H. unfold init_header in H. pose proof U as (U1 & U2 & U3). destruct (fresh_ok c U) as (LF & _).
  destruct (erase_loop c E (nb c - 1) true (with_buffer (repeat 255 (seg c)) s)) as [r1 s1] eqn:EL.
  apply erase_loop_ok in EL; [|lia|cbn; rewrite repeat_length; lia]. cbn [buffer store tm with_buffer] in EL.
  destruct EL as (T & B & O & R & A). fold (blank c) in *.
  cbn [buffer with_buffer] in H. destruct (fwrite c E 0 (fresh c) (with_buffer (fresh c) s1)) as [r2 s2] eqn:W. injection H as <- <-.
  apply fwrite_ok in W. cbn [buffer store tm with_buffer] in W. destruct W as (B2 & O2 & V2 & R2 & K2 & T2).
  destruct T2 as [T2 T3]; [lia|lia|]. rewrite T in *.
  replace (tm s + (nb c - 1))%nat with (tm s + nb c - 1)%nat in * by lia.
  split; [auto|]. split; [intros i Hi NZ; rewrite O2 by auto; apply O; lia|].
  split; [rewrite O in V2 by auto; tauto|].
  split; [|split].
  - destruct r2; [|discriminate]. intros ->. destruct (R2 eq_refl) as [R3 _]. split; [exact R3|]. intros i Hi.
    rewrite O2 by lia. apply R; [auto|lia].
  - intros K. assert (r2 = true) as -> by (apply T3, K; lia). destruct (R2 eq_refl) as [R3 _].
    destruct A as [-> A2]; [intros k Hk; apply K; lia|]. split; [auto|]. split; [auto|]. intros i Hi. rewrite O2 by lia. apply A2. lia.
  - intros K. destruct (K2 K) as [-> _]. apply O. auto.
Qed.
