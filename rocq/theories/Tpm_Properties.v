(** C65: the storage of the TPM. *)
From Coq Require Import List NArith Bool Arith Lia.
From Verif Require Import Base Tpm_Model Tpm_Spec Tpm_Proofs Tpm_History_Proofs.
Import ListNotations.
Local Open Scope N_scope.

(** While no access to the flash fails, every history has the results of an ideal TPM storage: the counter
    counts, segments return what was stored, and a scheduled clear happens at the next restart and not
    before. *)
Theorem C65_refines : forall c E ops s a, usable c -> sized c s -> reliable E -> holds (store s) a ->
  fst (run c E ops s) = fst (ideal_run c ops a) /\ holds (store (snd (run c E ops s))) (snd (ideal_run c ops a)).
Proof.
  intros c E ops s a U SZ RE HO. destruct (run c E ops s) as [rs s'] eqn:R. exact (ideal_run_ok c E ops s a rs s' U SZ RE HO R).
Qed.
Print Assumptions C65_refines.

(** The first start on any contents of the flash: a TPM that is there is kept (or cleared if this is
    pending), and otherwise a new one is created, without touching the segments. *)
Theorem C65_boot : forall c E s, usable c -> sized c s -> reliable E ->
  exists a s', step c E Boot s = (Status true, s') /\ holds (store s') (restart c a) /\
    (holds (store s) a \/
     ((forall b, store s O = Some b -> ~ valid b) /\ cnt a = 0 /\ pending a = false /\ forall i, segment a i = store s (S i))).
Proof.
  intros c E s U SZ RE. destruct (fresh_ok c U) as (LF & VF & CF & KF). cbn [step].
  destruct (init_state c E s) as [r s'] eqn:B.
  assert ((exists b, store s O = Some b /\ valid b) \/ (forall b, store s O = Some b -> ~ valid b)) as [(b & S0 & V)|NV].
  { destruct (store s O) as [b|]; [|right; discriminate]. destruct (N.eq_dec (magic b) tpm_magic); [left; eauto|right].
    intros x X. injection X as <-. auto. }
  - set (a := {| cnt := counter b; pending := clear b =? 1; segment := fun i => store s (S i) |}).
    assert (holds (store s) a) as HO.
    { split; [|reflexivity]. exists b. cbn [cnt pending a]. split; [auto|]. split; [auto|]. split; [auto|]. apply (iff_sym (N.eqb_eq _ _)). }
    destruct (restart_holds c E s a r s' U SZ RE HO B) as [-> H]. exists a, s'. auto.
  - apply boot_cases in B; auto. destruct B as (_ & [(x & X1 & X2 & _)|[(x & s3 & X1 & X2 & _)|(_ & O & _ & RT & _ & RW)]]).
    + destruct (NV x X1 X2).
    + destruct (NV x X1 X2).
    + rewrite (RW (proj2 (RE _))) in *. specialize (RT eq_refl).
      exists {| cnt := 0; pending := false; segment := fun i => store s (S i) |}, s'. split; [auto|]. split; [|right; auto].
      split; [|intros i; apply O; discriminate]. exists (fresh c). cbn [restart pending cnt]. rewrite CF, KF.
      split; [auto|]. split; [auto|]. split; [auto|]. split; intros X; discriminate.
Qed.
Print Assumptions C65_boot.

(** Whatever accesses fail, and whenever the power does: a segment that was stored is returned as stored,
    after any calls and restarts that neither store it again nor schedule a clear. *)
Theorem C65_segments : forall c E i d ops len m s s1 rs s2 l s3, usable c -> sized c s ->
  ~ asks_clear (store s) -> ~ In Schedule ops -> (forall d', ~ In (Put i d') ops) ->
  step c E (Put i d) s = (Status true, s1) -> run c E ops s1 = (rs, s2) -> step c E (Get i len m) s2 = (Bytes l, s3) ->
  l = firstn len d.
Proof.
  intros c E i d ops len m s s1 rs s2 l s3 U SZ NA NS NP H1 H2 H3. pose proof H1 as F. apply step_frame in F; auto.
  destruct F as (SZ1 & _ & A1).
  cbn [step] in H1. unfold set_storage in H1. destruct (fwrite c E (S i) d s) as [r0 s0] eqn:W. injection H1 as -> ->.
  apply fwrite_ok in W. destruct W as (_ & _ & _ & R & _). destruct (R eq_refl) as [ST _].
  apply run_frame with (i := i) in H2; auto.
  - destruct H2 as (_ & S2 & _). rewrite ST in S2. cbn [step] in H3. unfold get_storage, fread in H3.
    destruct (Nat.ltb (S i) (nb c)); [|discriminate]. destruct (f_read (E (tm s2))); [|discriminate]. rewrite S2 in H3.
    now injection H3 as <- _.
  - intros X. destruct (A1 X); [contradiction|discriminate].
Qed.
Print Assumptions C65_segments.

(** Whatever fails: only a clear that was scheduled erases segments, and only at a restart; storing a
    segment changes no other one. *)
Theorem C65_isolated : forall c E o s r s' i, usable c -> sized c s -> step c E o s = (r, s') -> store s' (S i) <> store s (S i) ->
  (exists d, o = Put i d) \/ ((o = Boot \/ o = Reset) /\ asks_clear (store s)).
Proof.
  intros c E o s r s' i U SZ H N. apply step_frame in H; auto. destruct H as (_ & F & _). destruct (F i) as [X|X]; [contradiction|auto].
Qed.
Print Assumptions C65_isolated.

(** If reads work and writes are atomic, no increment that was reported is lost, also across restarts, and the
    counter never moves further than it was told. *)
Theorem C65_counter : forall c E ops s b rs s', usable c -> atomic E -> sized c s -> store s O = Some b -> valid b -> clear b <> 1 ->
  ~ In Schedule ops -> counter b + tries ops < 2 ^ 64 -> run c E ops s = (rs, s') ->
  exists b', store s' O = Some b' /\ valid b' /\ counter b + wins ops rs <= counter b' <= counter b + tries ops.
Proof.
  intros c E ops s b rs s' U AT SZ S0 V K NS LT R. destruct (counter_run c E U AT ops s b rs s') as (b' & A & B & _ & C); eauto.
Qed.
Print Assumptions C65_counter.

(** A start of the device that reports success has performed a pending clear, if the header could be read;
    the writes may fail or not. *)
Theorem C65_clear : forall c E s s', usable c -> sized c s -> asks_clear (store s) -> f_read (E (tm s)) = true ->
  step c E Boot s = (Status true, s') ->
  (exists b, store s' O = Some b /\ valid b /\ counter b = 0 /\ clear b <> 1) /\
  forall i, (S i < nb c)%nat -> store s' (S i) = Some (blank c).
Proof.
  intros c E s s' U SZ AC F H. destruct (fresh_ok c U) as (LF & VF & CF & KF). cbn [step] in H.
  destruct (init_state c E s) as [r s0] eqn:B. injection H as -> ->.
  destruct (boot_clear c E s true s' U SZ AC F B eq_refl) as [A1 A2]. split; [|exact A2].
  exists (fresh c). rewrite CF, KF. split; [auto|]. split; [auto|]. split; [auto|]. discriminate.
Qed.
Print Assumptions C65_clear.

(** A clear that is interrupted by a power failure, at any point, is completed at the next start. *)
Theorem C65_clear_crash : forall c t E s r s1 s2 b, usable c -> sized c s -> asks_clear (store s) -> reliable E ->
  step c (dies t) Boot s = (r, s1) ->
  length b = seg c -> step c E Boot {| store := store s1; buffer := b; tm := 0 |} = (Status true, s2) ->
  (exists b, store s2 O = Some b /\ valid b /\ counter b = 0 /\ clear b <> 1) /\
  forall i, store s2 (S i) = if Nat.ltb (S i) (nb c) then Some (blank c) else store s (S i).
Proof.
  intros c t E s r s1 s2 b U SZ AC RE H1 LB H2. destruct (fresh_ok c U) as (LF & VF & CF & KF).
  pose proof H1 as F. apply step_frame in F; auto. destruct F as (SZ1 & _ & _).
  set (s1' := {| store := store s1; buffer := b; tm := 0 |}) in *.
  assert (sized c s1') as SZ1' by (split; [exact LB|apply SZ1]).
  cbn [step] in H1, H2. destruct (init_state c (dies t) s) as [r0 s0] eqn:B1. injection H1 as _ <-.
  destruct (init_state c E s1') as [r2 s3] eqn:B2. injection H2 as -> <-.
  assert (exists a, holds (store s1') a /\ (pending a = true \/ cnt a = 0) /\
    (pending a = false -> forall i, segment a i = if Nat.ltb (S i) (nb c) then Some (blank c) else store s (S i)) /\
    (forall i, (nb c <= S i)%nat -> segment a i = store s (S i))) as (a & HO & PA & NP & OUT).
  { destruct (crash_boot c t s r0 s0 U SZ AC B1) as [((h & S0 & V & K) & O)|[S0 A]].
    - exists {| cnt := counter h; pending := true; segment := fun i => store s0 (S i) |}. split; [|cbn; split; [auto|split; [discriminate|auto]]].
      split; [|reflexivity]. exists h. cbn. tauto.
    - exists {| cnt := 0; pending := false; segment := fun i => store s0 (S i) |}. split.
      + split; [|reflexivity]. exists (fresh c). cbn [cnt pending]. rewrite CF, KF. cbn [s1' store]. split; [auto|]. split; [auto|]. split; [auto|].
        split; intros X; discriminate.
      + cbn. split; [auto|]. split; [auto|]. intros i Hi. rewrite A. apply Nat.ltb_ge in Hi. now rewrite Hi. }
  destruct (restart_holds c E s1' a true s3 U SZ1' RE HO B2) as [_ ((h & S0 & V & C & P) & SG)].
  unfold restart in *. destruct (pending a) eqn:EP; cbn [cnt pending segment] in *.
  - split.
    + exists h. split; [auto|]. split; [auto|]. split; [auto|]. intros X. apply P in X. discriminate.
    + intros i. rewrite SG. destruct (Nat.ltb_spec (S i) (nb c)); [reflexivity|]. now apply OUT.
  - split.
    + exists h. split; [auto|]. split; [auto|]. split; [rewrite C; destruct PA; [discriminate|auto]|]. intros X. apply P in X. congruence.
    + intros i. rewrite SG. now apply NP.
Qed.
Print Assumptions C65_clear_crash.

(** ** Examples *)
Definition demo : config := {| nb := 3; seg := 16; limit := 64 |}.
Definition demo_tpm : tpm := {| store := fun _ => None; buffer := repeat 7 16; tm := O |}.
Definition works : env := fun _ => {| f_read := true; f_write := Written |}.
(** Read number [n] fails; write number [n] fails and leaves no data. *)
Definition no_read (n : nat) : env := fun k => {| f_read := negb (Nat.eqb k n); f_write := Written |}.
Definition no_write (n : nat) (w : wfate) : env := fun k => {| f_read := true; f_write := if Nat.eqb k n then w else Written |}.

Lemma demo_usable : usable demo.
Proof. unfold usable. cbn. lia. Qed.
Lemma demo_sized : sized demo demo_tpm.
Proof. split; [reflexivity|discriminate]. Qed.

Example C65_example :
  reliable works /\ usable demo /\ sized demo demo_tpm /\
  fst (run demo works [Boot; Increment; Increment; GetCounter; Put 1 [1; 2; 3]; Schedule; GetCounter; Get 1 2 false; Reset; GetCounter; Get 1 2 true; Get 5 1 true] demo_tpm)
  = [Status true; Status true; Status true; Value 2; Status true; Status true; Value 2; Bytes [1; 2]; Silent; Value 0; Bytes [255; 255]; Status false].
Proof. split; [split; reflexivity|]. split; [exact demo_usable|]. split; [exact demo_sized|]. vm_compute. reflexivity. Qed.

(** A flash that holds a TPM with a counter of 2 and a pending clear, and data in a segment. *)
Definition full : tpm := snd (run demo works [Boot; Increment; Increment; Put 0 [9]; Schedule] demo_tpm).
Example C65_clear_example : sized demo full /\ asks_clear (store full) /\ store full 1%nat = Some [9] /\
  step demo works Boot full = (Status true, snd (step demo works Boot full)).
Proof.
  split; [split; [reflexivity|intros b H; vm_compute in H; injection H as <-; reflexivity]|].
  split; [eexists; split; [vm_compute; reflexivity|split; reflexivity]|]. split; reflexivity.
Qed.

(** A read of the header that fails resets the counter and forgets a pending clear: the calls take every
    read error for a missing header (tpm.c:104-123). *)
Theorem C65_counter_read_error_refuted : ~ (forall c E s b s' n, usable c -> sized c s -> store s O = Some b -> valid b ->
  counter b + 1 < 2 ^ 64 -> (forall t, f_write (E t) = Written) ->
  step c E Increment s = (Status true, s') -> fst (step c works GetCounter s') = Value n -> counter b <= n).
Proof.
  intros H. destruct C65_clear_example as (SZ & _).
  specialize (H demo (no_read (tm full)) full (match store full O with Some b => b | None => [] end)
    (snd (step demo (no_read (tm full)) Increment full)) 1 demo_usable SZ eq_refl eq_refl eq_refl (fun _ => eq_refl)).
  specialize (H ltac:(vm_compute; reflexivity) ltac:(vm_compute; reflexivity)). vm_compute in H. now apply H.
Qed.
Print Assumptions C65_counter_read_error_refuted.

(** There is one copy of the header and it is rewritten in place: a power failure while the counter is
    incremented sets it back to zero. *)
Theorem C65_counter_power_refuted : ~ (forall c E s b, usable c -> sized c s -> store s O = Some b -> valid b -> clear b <> 1 ->
  (forall t, f_read (E t) = true) ->
  forall n, fst (run c works [Boot; GetCounter] (snd (step c E Increment s))) = [Status true; Value n] -> counter b <= n).
Proof.
  intros H. set (s := snd (run demo works [Boot; Increment; Increment] demo_tpm)).
  specialize (H demo (no_write (S (tm s)) Lost) s (match store s O with Some b => b | None => [] end) demo_usable).
  assert (sized demo s) as SZ by (split; [reflexivity|intros b X; vm_compute in X; injection X as <-; reflexivity]).
  specialize (H SZ eq_refl eq_refl ltac:(vm_compute; discriminate) (fun _ => eq_refl) 0 ltac:(vm_compute; reflexivity)).
  vm_compute in H. now apply H.
Qed.
Print Assumptions C65_counter_power_refuted.

(** When a segment cannot be erased, the header is written nevertheless (tpm.c:59-68): the data are still there
    and the clear is no longer pending, so it is never repeated. *)
Theorem C65_clear_repeated_refuted : ~ (forall c E s r s' i, usable c -> sized c s -> asks_clear (store s) ->
  (forall t, f_read (E t) = true) -> step c E Boot s = (r, s') -> (S i < nb c)%nat ->
  store s' (S i) <> store s (S i) \/ asks_clear (store s')).
Proof.
  intros H. destruct C65_clear_example as (SZ & AC & ST & _).
  set (E := no_write (S (S (tm full))) Kept).
  destruct (step demo E Boot full) as [r s'] eqn:B.
  destruct (H demo E full r s' O demo_usable SZ AC (fun _ => eq_refl) B ltac:(cbn; lia)) as [X|(b & X & _ & Z)].
  - vm_compute in B. injection B as _ <-. vm_compute in X. now apply X.
  - vm_compute in B. injection B as _ <-. vm_compute in X. injection X as <-. vm_compute in Z. discriminate.
Qed.
Print Assumptions C65_clear_repeated_refuted.

(** A start that cannot read the header reports success, keeps all data and forgets the pending clear. *)
Theorem C65_clear_read_error_refuted : ~ (forall c E s s' i, usable c -> sized c s -> asks_clear (store s) ->
  step c E Boot s = (Status true, s') -> (S i < nb c)%nat -> store s' (S i) <> store s (S i) \/ asks_clear (store s')).
Proof.
  intros H. destruct C65_clear_example as (SZ & AC & ST & _).
  set (E := no_read (tm full)).
  destruct (step demo E Boot full) as [r s'] eqn:B. assert (r = Status true) as -> by (vm_compute in B; now injection B as <- _).
  destruct (H demo E full s' O demo_usable SZ AC B ltac:(cbn; lia)) as [X|(b & X & _ & Z)].
  - vm_compute in B. injection B as <-. vm_compute in X. now apply X.
  - vm_compute in B. injection B as <-. vm_compute in X. injection X as <-. vm_compute in Z. discriminate.
Qed.
Print Assumptions C65_clear_read_error_refuted.
