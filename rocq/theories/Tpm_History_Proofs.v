(** Calls and histories of the TPM storage. *)
From Coq Require Import List NArith Bool Arith Lia.
From Verif Require Import Base Tpm_Model Tpm_Spec Tpm_Proofs.
Import ListNotations.
Local Open Scope N_scope.

Lemma boot_cases : forall c E s r s', usable c -> sized c s -> init_state c E s = (r, s') -> sized c s' /\
  ((exists b, store s O = Some b /\ valid b /\ f_read (E (tm s)) = true /\ clear b <> 1 /\ r = true /\ store s' = store s) \/
   (exists b s1, store s O = Some b /\ valid b /\ f_read (E (tm s)) = true /\ clear b = 1 /\ store s1 = store s /\ tm s1 = S (tm s) /\
      init_header c E true true s1 = (r, s')) \/
   (((forall b, store s O = Some b -> ~ valid b) \/ f_read (E (tm s)) = false) /\ (forall i, i <> O -> store s' i = store s i) /\
      (store s' O = store s O \/ store s' O = Some (fresh c) \/ (store s' O = None /\ f_write (E (S (tm s))) = Lost)) /\
      (r = true -> store s' O = Some (fresh c)) /\ (f_write (E (S (tm s))) = Kept -> store s' O = store s O) /\
      (f_write (E (S (tm s))) = Written -> r = true))).
Proof.
  intros c E s r s' U SZ H. unfold init_state in H. destruct (fresh_ok c U) as (LF & VF & CF & KF).
  destruct (read_header c E true true s) as [ok s1] eqn:R. apply read_header_ok in R; auto. destruct R as (L1 & O1 & R).
  destruct R as [(b & S0 & V & F & -> & B & SS & T)|(WHY & _ & R)].
  - rewrite B in H. destruct SZ as [_ SZ]. destruct (N.eqb_spec (clear b) 1) as [K|K].
    + pose proof H as H'. apply clear_ok in H'; [|exact U]. destruct H' as (B' & O' & V' & _). split.
      * split; [now rewrite B'|]. intros x Hx. destruct V' as [Q|[Q|Q]]; rewrite Q in Hx.
        -- rewrite SS in Hx. auto.
        -- injection Hx as <-. exact LF.
        -- discriminate.
      * right. left. exists b, s1. repeat (split; [auto|]). auto.
    + injection H as <- <-. split; [split; [auto|rewrite SS; auto]|]. left. exists b. repeat (split; [auto|]). auto.
  - destruct (R eq_refl) as (B & _ & R2). destruct (R2 eq_refl) as (V & RT & RK & RW). rewrite B, KF in H. cbn [N.eqb] in H.
    assert ((ok, s1) = (r, s')) as H' by (destruct ok; exact H). injection H' as -> ->. split.
    + split; [auto|]. intros x Hx. destruct SZ as [_ SZ]. destruct V as [Q|[Q|[Q _]]]; rewrite Q in Hx; auto; [|discriminate].
      injection Hx as <-. exact LF.
    + right. right. split; [exact WHY|]. split; [exact O1|]. split; [exact V|]. split; [exact RT|].
      split; [intros Q; apply RK, Q|exact RW].
Qed.

(** The new header that a call writes. *)
Definition change (o : op) (b : list N) : list N :=
  match o with Increment => bump b | _ => if clear b =? 1 then b else flag b end.

Lemma change_ok : forall o b, (13 <= length b)%nat -> length (change o b) = length b /\ magic (change o b) = magic b.
Proof.
  intros o b L. destruct (bump_ok b L) as (A & B & _). destruct (flag_ok b L) as (C & D & _).
  destruct o; cbn [change]; auto; destruct (clear b =? 1); auto.
Qed.

Lemma modify_cases : forall c E o s r s', usable c -> sized c s -> (o = Increment \/ o = Schedule) -> step c E o s = (r, s') ->
  sized c s' /\ (forall i, i <> O -> store s' i = store s i) /\ exists b ok, r = Status ok /\
  (((store s O = Some b /\ valid b /\ f_read (E (tm s)) = true)) \/
   (b = fresh c /\ ((forall b, store s O = Some b -> ~ valid b) \/ f_read (E (tm s)) = false))) /\
  (store s' O = store s O \/ store s' O = Some (change o b) \/ (store s' O = None /\ f_write (E (S (tm s))) = Lost)) /\
  (ok = true -> store s' O = Some (change o b)) /\ (f_write (E (S (tm s))) = Written -> ok = true).
Proof.
  intros c E o s r s' U SZ OO H. destruct (fresh_ok c U) as (LF & VF & CF & KF). pose proof U as (U1 & U2 & U3).
  assert (exists ok s1, read_header c E true false s = (ok, s1)) as (ok & s1 & R) by (destruct (read_header c E true false s); eauto).
  assert (exists b, ok = true /\ buffer s1 = b /\ length b = seg c /\ store s1 = store s /\ tm s1 = S (tm s) /\
    (((store s O = Some b /\ valid b /\ f_read (E (tm s)) = true)) \/
     (b = fresh c /\ ((forall b, store s O = Some b -> ~ valid b) \/ f_read (E (tm s)) = false)))) as (b & -> & B & LB & SS & T & WHY).
  { apply read_header_ok in R; auto. destruct R as (L1 & O1 & [(b & S0 & V & F & K & B & SS & T)|(WHY & _ & R)]).
    - exists b. repeat (split; [auto; congruence|]). auto.
    - destruct (R eq_refl) as (B & R2 & _). destruct (R2 eq_refl) as (K & SS & T). exists (fresh c).
      repeat (split; [auto; congruence|]). auto. }
  destruct (change_ok o b) as [LC MC]; [lia|].
  assert (forall d r1 s2, length d = seg c -> fwrite c E 0 (buffer (with_buffer d s1)) (with_buffer d s1) = (r1, s2) -> 
    sized c s2 /\ (forall i, i <> O -> store s2 i = store s i) /\
    (store s2 O = store s O \/ store s2 O = Some d \/ (store s2 O = None /\ f_write (E (S (tm s))) = Lost)) /\
    (r1 = true -> store s2 O = Some d) /\ (f_write (E (S (tm s))) = Written -> r1 = true)) as WR.
  { intros d r1 s2 LD W. apply fwrite_ok in W. cbn [buffer store tm with_buffer] in W. rewrite SS, T in W.
    destruct W as (B2 & O2 & V2 & R2 & _ & T2). destruct T2 as [_ T2]; [lia|lia|].
    split; [|split; [exact O2|split; [exact V2|split; [intros Q; now apply R2|exact T2]]]].
    split; [now rewrite B2|]. intros x Hx. destruct SZ as [_ SZ]. destruct V2 as [Q|[Q|[Q _]]]; rewrite Q in Hx; auto; [|discriminate].
    injection Hx as <-. exact LD. }
  destruct OO as [-> | ->]; cbn [step] in H.
  - unfold increment in H. rewrite R in H. rewrite B in H.
    destruct (fwrite c E 0 (buffer (with_buffer (bump b) s1)) (with_buffer (bump b) s1)) as [r1 s2] eqn:W. injection H as <- <-.
    apply WR in W; [|cbn [change] in LC; congruence]. destruct W as (W1 & W2 & W3 & W4 & W5). split; [auto|]. split; [auto|].
    exists b, r1. auto 6.
  - unfold schedule_clear in H. rewrite R in H. rewrite B in H. destruct (clear b =? 1) eqn:K.
    + injection H as <- <-. assert (store s O = Some b) as SB.
      { destruct WHY as [[W _]|[-> _]]; auto. rewrite KF in K. discriminate. }
      split; [split; [now rewrite B|rewrite SS; apply SZ]|]. rewrite SS. split; [auto|]. exists b, true. split; [auto|].
      split; [exact WHY|]. split; [auto|]. split; [|auto]. cbn [change]. now rewrite K.
    + destruct (fwrite c E 0 (buffer (with_buffer (flag b) s1)) (with_buffer (flag b) s1)) as [r1 s2] eqn:W. injection H as <- <-.
      cbn [change] in LC. rewrite K in LC.
      apply WR in W; [|congruence]. destruct W as (W1 & W2 & W3 & W4 & W5). split; [auto|]. split; [auto|].
      exists b, r1. cbn [change]. rewrite K. auto 6.
Qed.

Lemma read_cases : forall c E s r s', usable c -> sized c s -> get_counter c E s = (r, s') -> sized c s' /\ store s' = store s /\
  ((exists b, store s O = Some b /\ valid b /\ f_read (E (tm s)) = true /\ r = Some (counter b)) \/
   (((forall b, store s O = Some b -> ~ valid b) \/ f_read (E (tm s)) = false) /\ r = None)).
Proof.
  intros c E s r s' U SZ H. unfold get_counter in H. destruct (read_header c E false false s) as [ok s1] eqn:R. injection H as <- <-.
  apply read_header_ok in R; auto. destruct R as (L1 & O1 & [(b & S0 & V & F & -> & B & SS & T)|(WHY & R & _)]).
  - split; [split; [auto|rewrite SS; apply SZ]|]. split; [auto|]. left. exists b. rewrite B. auto.
  - destruct (R eq_refl) as [-> SS]. split; [split; [auto|rewrite SS; apply SZ]|]. split; [auto|]. right. auto.
Qed.

(** ** Every call, with any failures *)

Lemma step_frame : forall c E o s r s', usable c -> sized c s -> step c E o s = (r, s') ->
  sized c s' /\
  (forall i, store s' (S i) = store s (S i) \/ (exists d, o = Put i d) \/ ((o = Boot \/ o = Reset) /\ asks_clear (store s))) /\
  (asks_clear (store s') -> asks_clear (store s) \/ o = Schedule).
Proof.
  intros c E o s r s' U SZ H. destruct (fresh_ok c U) as (LF & VF & CF & KF). pose proof U as (U1 & U2 & U3).
  assert (forall f, f O = Some (fresh c) -> asks_clear f -> False) as NF.
  { intros f Q (b & F & V & K). rewrite Q in F. injection F as <-. rewrite KF in K. discriminate. }
  assert (forall r0, (o = Boot \/ o = Reset) -> init_state c E s = (r0, s') ->
    sized c s' /\
    (forall i, store s' (S i) = store s (S i) \/ (exists d, o = Put i d) \/ ((o = Boot \/ o = Reset) /\ asks_clear (store s))) /\
    (asks_clear (store s') -> asks_clear (store s) \/ o = Schedule)) as BOOT.
  { intros r0 OO Hb. apply boot_cases in Hb; auto. destruct Hb as (SZ' & [(b & S0 & V & F & K & _ & SS)|[(b & s1 & S0 & V & F & K & _)|(WHY & O1 & V & _)]]).
    - split; [auto|]. rewrite SS. auto.
    - assert (asks_clear (store s)) as AC by (exists b; auto). split; [auto|]. split; [auto|]. auto.
    - split; [auto|]. split; [intros i; left; apply O1; discriminate|]. intros AC. left.
      destruct V as [Q|[Q|[Q _]]].
      + destruct AC as (b & X & Y & Z). exists b. rewrite <- Q. auto.
      + destruct (NF _ Q AC).
      + destruct AC as (b & X & _). congruence. }
  destruct o as [| | | | |i d|i len m].
  - cbn [step] in H. destruct (init_state c E s) as [r0 s0] eqn:B. injection H as <- <-. apply (BOOT r0); auto.
  - cbn [step] in H. unfold on_soft_reset in H. destruct (init_state c E s) as [r0 s0] eqn:B. injection H as <- <-. apply (BOOT r0); auto.
  - apply modify_cases in H; auto. destruct H as (SZ' & O1 & _). split; [auto|]. split; [intros i; left; apply O1; discriminate|]. auto.
  - apply modify_cases in H; auto. destruct H as (SZ' & O1 & b & ok & -> & WHY & V & _). split; [auto|].
    split; [intros i; left; apply O1; discriminate|]. intros AC. left.
    destruct V as [Q|[Q|[Q _]]].
    + destruct AC as (b' & X & Y & Z). exists b'. rewrite <- Q. auto.
    + destruct AC as (b' & X & Y & Z). rewrite Q in X. injection X as <-. cbn [change] in *.
      destruct WHY as [(W1 & W2 & _)|[-> _]].
      * exists b. split; [auto|]. split; [auto|]. destruct (bump_ok b) as (_ & _ & _ & KB); [rewrite (proj2 SZ b W1); lia|]. congruence.
      * destruct (bump_ok (fresh c)) as (_ & _ & _ & KB); [lia|]. congruence.
    + destruct AC as (b' & X & _). congruence.
  - cbn [step] in H. destruct (get_counter c E s) as [r0 s0] eqn:G. apply read_cases in G; auto. destruct G as (SZ' & SS & _).
    injection H as _ <-. split; [auto|]. rewrite SS. auto.
  - cbn [step] in H. unfold set_storage in H. destruct (fwrite c E (S i) d s) as [r0 s0] eqn:W. injection H as _ <-.
    apply fwrite_ok in W. destruct W as (B & O1 & _). split.
    + split; [rewrite B; exact (proj1 SZ)|]. intros x Hx. rewrite O1 in Hx by discriminate. exact (proj2 SZ x Hx).
    + split.
      * intros j. destruct (Nat.eq_dec j i) as [->|D]; [right; left; eauto|]. left. apply O1. congruence.
      * intros (b & X & Y & Z). left. exists b. rewrite O1 in X by discriminate. auto.
  - cbn [step] in H. unfold get_storage, fread in H.
    assert (store s' = store s /\ buffer s' = buffer s) as [SS BB].
    { destruct (Nat.ltb (S i) (nb c)); [|injection H as _ <-; auto].
      destruct (f_read (E (tm s))); [destruct (store s (S i))|]; injection H as _ <-; auto. }
    split; [split; [rewrite BB; exact (proj1 SZ)|rewrite SS; exact (proj2 SZ)]|]. rewrite SS. auto.
Qed.

Lemma run_app : forall c E l1 l2 s, run c E (l1 ++ l2) s =
  let '(r1, s1) := run c E l1 s in let '(r2, s2) := run c E l2 s1 in (r1 ++ r2, s2).
Proof.
  induction l1 as [|o t IH]; intros l2 s; cbn [app run]; [destruct (run c E l2 s); reflexivity|].
  destruct (step c E o s) as [r s1]. rewrite IH. destruct (run c E t s1) as [r1 s2]. destruct (run c E l2 s2). reflexivity.
Qed.

Lemma run_frame : forall c E i l s rs s', usable c -> sized c s -> ~ asks_clear (store s) -> ~ In Schedule l -> 
  (forall d, ~ In (Put i d) l) -> run c E l s = (rs, s') -> sized c s' /\ store s' (S i) = store s (S i) /\ ~ asks_clear (store s').
Proof.
  intros c E i. induction l as [|o t IH]; intros s rs s' U SZ NA NS NP H; cbn [run] in H.
  - injection H as _ <-. auto.
  - destruct (step c E o s) as [r s1] eqn:ST. destruct (run c E t s1) as [rs1 s2] eqn:R. injection H as _ <-.
    apply step_frame in ST; auto. destruct ST as (SZ1 & F1 & A1).
    destruct (IH s1 rs1 s2) as (SZ2 & F2 & A2); auto.
    + intros AC. destruct (A1 AC) as [X| ->]; [auto|]. apply NS. now left.
    + intros X. apply NS. now right.
    + intros d X. apply (NP d). now right.
    + split; [auto|]. split; [|auto]. rewrite F2. destruct (F1 i) as [X|[[d ->]|[_ X]]]; [auto| |contradiction].
      destruct (NP d). now left.
Qed.

Lemma run_sized : forall c E l s rs s', usable c -> sized c s -> run c E l s = (rs, s') -> sized c s'.
Proof.
  intros c E. induction l as [|o t IH]; intros s rs s' U SZ H; cbn [run] in H; [injection H as _ <-; auto|].
  destruct (step c E o s) as [r s1] eqn:ST. destruct (run c E t s1) as [rs1 s2] eqn:R. injection H as _ <-.
  apply step_frame in ST; auto. exact (IH s1 rs1 s2 U (proj1 ST) R).
Qed.

(** ** Without failures: the ideal TPM *)

Lemma restart_holds : forall c E s a r s', usable c -> sized c s -> reliable E -> holds (store s) a ->
  init_state c E s = (r, s') -> r = true /\ holds (store s') (restart c a).
Proof.
  intros c E s a r s' U SZ RE ((b & S0 & V & C & P) & SG) H. destruct (fresh_ok c U) as (LF & VF & CF & KF).
  apply boot_cases in H; auto. destruct H as (_ & [(b' & S0' & _ & _ & K & -> & SS)|[(b' & s1 & S0' & _ & _ & K & SS & T & H)|(WHY & _)]]).
  - rewrite S0 in S0'. injection S0' as <-. split; [auto|]. unfold restart. destruct (pending a) eqn:PA; [destruct K; now apply P|].
    rewrite SS. split; [exists b; rewrite PA; auto|auto].
  - rewrite S0 in S0'. injection S0' as <-. apply clear_ok in H; [|exact U]. destruct H as (_ & O & _ & _ & A & _).
    destruct A as (-> & A0 & A); [intros k _; apply RE|]. split; [auto|]. unfold restart. rewrite (proj1 P K). split; cbn [cnt pending segment].
    + exists (fresh c). rewrite KF, CF. split; [auto|]. split; [auto|]. split; [auto|]. split; intros X; discriminate.
    + intros i. destruct (Nat.ltb_spec (S i) (nb c)) as [L|L]; [apply A; lia|]. rewrite O by lia. rewrite SS. apply SG.
  - destruct WHY as [W|W]; [destruct (W b S0 V)|]. rewrite (proj1 (RE (tm s))) in W. discriminate.
Qed.

Lemma ideal_step_ok : forall c E o s a r s', usable c -> sized c s -> reliable E -> holds (store s) a -> step c E o s = (r, s') ->
  r = fst (ideal_step c o a) /\ holds (store s') (snd (ideal_step c o a)).
Proof.
  intros c E o s a r s' U SZ RE HO H. pose proof HO as ((b & S0 & V & C & P) & SG). pose proof U as (U1 & U2 & U3).
  assert (LB : (13 <= length b)%nat) by (rewrite (proj2 SZ b S0); lia).
  destruct o as [| | | | |i d|i len m].
  - cbn [step] in H. destruct (init_state c E s) as [r0 s0] eqn:B. injection H as <- <-.
    destruct (restart_holds c E s a r0 s0) as [-> X]; auto.
  - cbn [step] in H. unfold on_soft_reset in H. destruct (init_state c E s) as [r0 s0] eqn:B. injection H as <- <-.
    destruct (restart_holds c E s a r0 s0) as [-> X]; auto.
  - apply modify_cases in H; auto. destruct H as (_ & O1 & b' & ok & -> & WHY & _ & OK & RW).
    rewrite (RW (proj2 (RE _))) in *. specialize (OK eq_refl).
    destruct WHY as [(W1 & _)|[_ [W|W]]]; [|destruct (W b S0 V)|rewrite (proj1 (RE (tm s))) in W; discriminate].
    rewrite S0 in W1. injection W1 as <-. split; [reflexivity|]. cbn [ideal_step snd]. split; cbn [cnt pending segment].
    + exists (change Schedule b). split; [exact OK|]. destruct (change_ok Schedule b LB) as [_ MC]. unfold valid. rewrite MC. split; [exact V|].
      cbn [change]. destruct (flag_ok b LB) as (_ & _ & F3 & F4). destruct (N.eqb_spec (clear b) 1) as [K|K]; [tauto|]. rewrite F3, F4. tauto.
    + intros i. rewrite O1 by discriminate. apply SG.
  - apply modify_cases in H; auto. destruct H as (_ & O1 & b' & ok & -> & WHY & _ & OK & RW).
    rewrite (RW (proj2 (RE _))) in *. specialize (OK eq_refl).
    destruct WHY as [(W1 & _)|[_ [W|W]]]; [|destruct (W b S0 V)|rewrite (proj1 (RE (tm s))) in W; discriminate].
    rewrite S0 in W1. injection W1 as <-. split; [reflexivity|]. cbn [ideal_step snd]. split; cbn [cnt pending segment].
    + exists (bump b). split; [exact OK|]. destruct (bump_ok b LB) as (_ & MB & CB & KB). unfold valid. rewrite MB, CB, KB, C. auto.
    + intros i. rewrite O1 by discriminate. apply SG.
  - cbn [step] in H. destruct (get_counter c E s) as [r0 s0] eqn:G. apply read_cases in G; auto.
    destruct G as (_ & SS & [(b' & S0' & _ & _ & ->)|([W|W] & _)]); [|destruct (W b S0 V)|rewrite (proj1 (RE (tm s))) in W; discriminate].
    rewrite S0 in S0'. injection S0' as <-. injection H as <- <-. rewrite SS, C. auto.
  - cbn [step] in H. unfold set_storage in H. destruct (fwrite c E (S i) d s) as [r0 s0] eqn:W. injection H as <- <-. cbn [ideal_step].
    destruct (Nat.ltb (S i) (nb c) && Nat.leb (length d) (limit c)) eqn:B.
    + apply andb_true_iff in B. destruct B as [B1 B2]. apply Nat.ltb_lt in B1. apply Nat.leb_le in B2.
      apply fwrite_ok in W. destruct W as (_ & O1 & _ & R1 & _ & T1). destruct (T1 B1 B2) as [_ T2].
      rewrite (T2 (proj2 (RE _))) in *. destruct (R1 eq_refl) as [R2 _]. split; [reflexivity|]. cbn [snd]. split; cbn [cnt pending segment].
      * exists b. rewrite O1 by discriminate. auto.
      * intros j. destruct (Nat.eqb_spec j i) as [->|D]; [exact R2|]. rewrite O1 by congruence. apply SG.
    + unfold fwrite in W. rewrite B in W. injection W as <- <-. auto.
  - cbn [step] in H. unfold get_storage, fread in H. cbn [ideal_step].
    destruct (Nat.ltb (S i) (nb c)); [|injection H as <- <-; auto]. rewrite (proj1 (RE (tm s))) in H. rewrite SG in H.
    destruct (segment a i); [injection H as <- <-; auto|]. destruct m; injection H as <- <-; auto.
Qed.

Lemma ideal_run_ok : forall c E l s a rs s', usable c -> sized c s -> reliable E -> holds (store s) a -> run c E l s = (rs, s') ->
  rs = fst (ideal_run c l a) /\ holds (store s') (snd (ideal_run c l a)).
Proof.
  intros c E. induction l as [|o t IH]; intros s a rs s' U SZ RE HO H; cbn [run] in H; [injection H as <- <-; auto|].
  destruct (step c E o s) as [r s1] eqn:ST. destruct (run c E t s1) as [rs1 s2] eqn:R. injection H as <- <-.
  pose proof ST as ST'. apply step_frame in ST'; auto. eapply ideal_step_ok in ST; eauto. destruct ST as [-> HO1].
  cbn [ideal_run]. destruct (ideal_step c o a) as [r0 a0]. cbn [fst snd] in *.
  destruct (IH s1 a0 rs1 s2 U (proj1 ST') RE HO1 R) as [-> HO2]. destruct (ideal_run c t a0) as [x y]. auto.
Qed.

(** ** Atomic writes: the counter *)

Lemma atomic_step : forall c E o s b r s', usable c -> sized c s -> atomic E -> o <> Boot -> o <> Reset ->
  store s O = Some b -> valid b -> step c E o s = (r, s') ->
  exists b', store s' O = Some b' /\ valid b' /\ (clear b = 1 -> clear b' = 1) /\
    (counter b' = counter b \/ (o = Increment /\ counter b' = (counter b + 1) mod 2 ^ 64)) /\
    (o = Increment -> r = Status true -> counter b' = (counter b + 1) mod 2 ^ 64) /\
    (forall n, o = GetCounter -> r = Value n -> n = counter b).
Proof.
  intros c E o s b r s' U SZ AT NB NR S0 V H. pose proof U as (U1 & U2 & U3).
  assert (LB : (13 <= length b)%nat) by (rewrite (proj2 SZ b S0); lia).
  assert (forall x, f_write (E x) = Lost -> False) as NL by (intros x X; now apply (AT x)).
  destruct o as [| | | | |i d|i len m]; try contradiction.
  - apply modify_cases in H; auto. destruct H as (_ & O1 & b' & ok & -> & WHY & VV & OK & _).
    destruct WHY as [(W1 & _)|[_ [W|W]]]; [|destruct (W b S0 V)|rewrite (proj1 (AT (tm s))) in W; discriminate].
    rewrite S0 in W1. injection W1 as <-. destruct (flag_ok b LB) as (_ & F2 & F3 & F4).
    destruct VV as [Q|[Q|[_ Q]]]; [| |destruct (NL _ Q)].
    + exists b. rewrite Q. repeat (split; [auto; try discriminate|]). discriminate.
    + exists (change Schedule b). split; [exact Q|]. destruct (change_ok Schedule b LB) as [_ MC]. unfold valid. rewrite MC. split; [exact V|].
      cbn [change]. destruct (N.eqb_spec (clear b) 1) as [K|K]; [repeat (split; [auto; try discriminate|]); discriminate|].
      rewrite F3, F4. repeat (split; [auto; try discriminate|]). discriminate.
  - apply modify_cases in H; auto. destruct H as (_ & O1 & b' & ok & -> & WHY & VV & OK & _).
    destruct WHY as [(W1 & _)|[_ [W|W]]]; [|destruct (W b S0 V)|rewrite (proj1 (AT (tm s))) in W; discriminate].
    rewrite S0 in W1. injection W1 as <-. destruct (bump_ok b LB) as (_ & F2 & F3 & F4).
    destruct VV as [Q|[Q|[_ Q]]]; [| |destruct (NL _ Q)].
    + exists b. split; [congruence|]. split; [auto|]. split; [auto|]. split; [auto|]. split; [|discriminate].
      intros _ X. injection X as ->. specialize (OK eq_refl). rewrite Q, S0 in OK. injection OK as OK. cbn [change] in OK. congruence.
    + exists (bump b). split; [exact Q|]. unfold valid. rewrite F2, F3, F4. split; [exact V|]. repeat (split; [auto|]). discriminate.
  - cbn [step] in H. destruct (get_counter c E s) as [r0 s0] eqn:G. apply read_cases in G; auto.
    destruct G as (_ & SS & [(b' & S0' & _ & _ & ->)|(_ & ->)]); injection H as <- <-.
    + rewrite S0 in S0'. injection S0' as <-. exists b. rewrite SS. repeat (split; [auto; try discriminate|]). intros n _ X. now injection X as <-.
    + exists b. rewrite SS. repeat (split; [auto; try discriminate|]). discriminate.
  - cbn [step] in H. unfold set_storage in H. destruct (fwrite c E (S i) d s) as [r0 s0] eqn:W. injection H as <- <-.
    apply fwrite_ok in W. destruct W as (_ & O1 & _). exists b. rewrite O1 by discriminate.
    repeat (split; [auto; try discriminate|]). discriminate.
  - cbn [step] in H. unfold get_storage, fread in H.
    assert (store s' = store s) as SS.
    { destruct (Nat.ltb (S i) (nb c)); [|injection H as _ <-; auto].
      destruct (f_read (E (tm s))); [destruct (store s (S i))|]; injection H as _ <-; auto. }
    exists b. rewrite SS. repeat (split; [auto; try discriminate|]). discriminate.
Qed.

(** ** Power failure during a clear *)

Lemma crash_boot : forall c t s r s', usable c -> sized c s -> asks_clear (store s) -> init_state c (dies t) s = (r, s') ->
  asks_clear (store s') /\ (forall i, (nb c <= S i)%nat -> store s' (S i) = store s (S i)) \/
  (store s' O = Some (fresh c) /\ forall i, store s' (S i) = if Nat.ltb (S i) (nb c) then Some (blank c) else store s (S i)).
Proof.
  intros c t s r s' U SZ (b & S0 & V & K) H. pose proof U as (U1 & U2 & U3).
  assert (forall k, (k < t)%nat -> f_write (dies t k) = Written) as DW by (intros k Hk; unfold dies; apply Nat.ltb_lt in Hk; now rewrite Hk).
  assert (forall k, (t <= k)%nat -> f_write (dies t k) = Kept) as DK by (intros k Hk; unfold dies; apply Nat.ltb_ge in Hk; now rewrite Hk).
  assert (forall k, f_read (dies t k) = false -> (t <= k)%nat) as DR
    by (intros k Hk; unfold dies in Hk; destruct (Nat.ltb_spec k t); [discriminate|auto]).
  apply boot_cases in H; auto. destruct H as (_ & [(b' & S0' & _ & _ & K' & _)|[(b' & s1 & S0' & _ & _ & _ & SS & T & H)|(WHY & O1 & _ & _ & KK & _)]]).
  - rewrite S0 in S0'. injection S0' as <-. contradiction.
  - apply clear_ok in H; [|exact U]. destruct H as (_ & O & V' & _ & A & KP). 
    destruct (Nat.lt_ge_cases (tm s1 + nb c - 1)%nat t) as [L|L].
    + right. destruct A as (_ & A1 & A2); [intros k Hk; apply DW; lia|]. split; [exact A1|]. intros i.
      destruct (Nat.ltb_spec (S i) (nb c)); [apply A2; lia|]. rewrite O by lia. now rewrite SS.
    + left. split.
      * exists b. rewrite (KP (DK _ L)), SS. auto.
      * intros i Hi. rewrite O by lia. now rewrite SS.
  - left. destruct WHY as [W|W]; [destruct (W b S0 V)|]. apply DR in W. split.
    + exists b. rewrite KK; [auto|]. apply DK. lia.
    + intros i _. apply O1. discriminate.
Qed.

Lemma boot_clear : forall c E s r s', usable c -> sized c s -> asks_clear (store s) -> f_read (E (tm s)) = true ->
  init_state c E s = (r, s') -> r = true ->
  store s' O = Some (fresh c) /\ forall i, (S i < nb c)%nat -> store s' (S i) = Some (blank c).
Proof.
  intros c E s r s' U SZ (b & S0 & V & K) F H ->. apply boot_cases in H; auto.
  destruct H as (_ & [(b' & S0' & _ & _ & K' & _)|[(b' & s1 & S0' & _ & _ & _ & SS & T & H)|(WHY & _)]]).
  - rewrite S0 in S0'. injection S0' as <-. contradiction.
  - apply clear_ok in H; [|exact U]. destruct H as (_ & _ & _ & R & _). destruct (R eq_refl) as [R1 R2]. split; [exact R1|].
    intros i Hi. apply R2. lia.
  - destruct WHY as [W|W]; [destruct (W b S0 V)|congruence].
Qed.

Lemma counter_run : forall c E, usable c -> atomic E -> forall l s b rs s', sized c s -> store s O = Some b -> valid b -> clear b <> 1 ->
  ~ In Schedule l -> counter b + tries l < 2 ^ 64 -> run c E l s = (rs, s') ->
  exists b', store s' O = Some b' /\ valid b' /\ clear b' <> 1 /\ counter b + wins l rs <= counter b' <= counter b + tries l.
Proof.
  intros c E U AT. induction l as [|o t IH]; intros s b rs s' SZ S0 V K NS LT H; cbn [run] in H.
  - injection H as <- <-. exists b. cbn [wins tries]. split; [auto|]. split; [auto|]. split; [auto|]. split; lia.
  - destruct (step c E o s) as [r s1] eqn:ST. destruct (run c E t s1) as [rs1 s2] eqn:R. injection H as <- <-.
    pose proof ST as FR. apply step_frame in FR; auto. destruct FR as (SZ1 & _ & AC1).
    assert (o <> Schedule) as NO by (intros ->; apply NS; now left).
    assert (~ asks_clear (store s)) as NA by (intros (x & X & _ & Z); rewrite S0 in X; injection X as <-; contradiction).
    assert (exists b1, store s1 O = Some b1 /\ valid b1 /\ (counter b1 = counter b \/ (o = Increment /\ counter b1 = counter b + 1)) /\
      (o = Increment -> r = Status true -> counter b1 = counter b + 1)) as (b1 & S1 & V1 & C1 & W1).
    { assert ((o = Boot \/ o = Reset) \/ (o <> Boot /\ o <> Reset)) as [BR|[NB NR]]
        by (destruct o; auto; right; split; discriminate).
      - assert (store s1 = store s) as SS.
        { assert (forall r0, init_state c E s = (r0, s1) -> store s1 = store s) as Q.
          { intros r0 Q. apply boot_cases in Q; auto. destruct Q as (_ & [(x & X1 & X2 & X3 & X4 & X5 & X6)|[(x & s3 & X1 & X2 & X3 & X4 & _)|([W|W] & _)]]).
            - exact X6.
            - rewrite S0 in X1. injection X1 as <-. contradiction.
            - destruct (W b S0 V).
            - rewrite (proj1 (AT (tm s))) in W. discriminate. }
          destruct BR as [-> | ->]; cbn [step] in ST; unfold on_soft_reset in ST; destruct (init_state c E s) as [r0 s0]; injection ST as _ <-; eauto. }
        exists b. rewrite SS. split; [auto|]. split; [auto|]. split; [auto|]. intros -> _. destruct BR; discriminate.
      - eapply atomic_step in ST; eauto. destruct ST as (b1 & S1 & V1 & _ & C1 & W1 & _). exists b1. split; [auto|]. split; [auto|].
        assert (o = Increment -> (counter b + 1) mod 2 ^ 64 = counter b + 1) as MD.
        { intros ->. apply N.mod_small. cbn [tries] in LT. lia. }
        split; [destruct C1 as [C1|[C0 C1]]; [auto|right; split; [auto|rewrite <- (MD C0); auto]]|].
        intros Q Q2. rewrite <- (MD Q). auto. }
    assert (clear b1 <> 1) as K1 by (intros Q; destruct (AC1 (ex_intro _ b1 (conj S1 (conj V1 Q)))); contradiction).
    assert (tries (o :: t) = (match o with Increment => 1 | _ => 0 end) + tries t) as TR by (destruct o; reflexivity).
    rewrite TR in *.
    destruct (IH s1 b1 rs1 s2 SZ1 S1 V1 K1) as (b2 & S2 & V2 & K2 & L2); auto.
    + intros X. apply NS. now right.
    + destruct C1 as [C1|[-> C1]]; rewrite C1; [destruct o; lia|lia].
    + exists b2. split; [auto|]. split; [auto|]. split; [auto|].
      assert (wins (o :: t) (r :: rs1) = (match o, r with Increment, Status true => 1 | _, _ => 0 end) + wins t rs1) as WI
        by (destruct o, r as [[]| | |]; reflexivity).
      rewrite WI. split.
      * destruct o; try (destruct C1 as [C1|[C0 _]]; [lia|discriminate]). destruct r as [[]| | |]; try (destruct C1 as [C1|[_ C1]]; lia).
      * destruct C1 as [C1|[-> C1]]; [destruct o; lia|lia].
Qed.
