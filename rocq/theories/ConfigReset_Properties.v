(** C76: resetting the configuration. *)
From Coq Require Import List NArith Lia Bool Arith.
From Verif Require Import ConfigReset_Model ConfigReset_Spec.
Import ListNotations.
Local Open Scope nat_scope.

Lemma clear_all_cleared : forall answer l done, exists d e,
  cleared answer (length done) l d e /\
  clear_all answer l done = (done ++ d, match e with None => Ok | Some x => External x end).
Proof.
  intros answer l. induction l as [|s l IH]; intros done; cbn [clear_all].
  - exists [], None. split; [constructor|]. rewrite app_nil_r. reflexivity.
  - destruct (answer (length done) =? 0)%N eqn:E.
    + apply N.eqb_eq in E. destruct (IH (done ++ [s])) as (d & e & C & Q). rewrite app_length, Nat.add_1_r in C.
      exists (s :: d), e. split; [constructor; assumption|]. rewrite Q, <- app_assoc. reflexivity.
    + apply N.eqb_neq in E. exists [s], (Some (answer (length done))). split; [constructor; exact E|reflexivity].
Qed.

Lemma cleared_all : forall answer n l d, cleared answer n l d None -> d = l.
Proof.
  intros answer n l d C. remember None as e eqn:E. induction C; [reflexivity| |discriminate].
  rewrite (IHC E). reflexivity.
Qed.

Lemma cleared_app : forall answer n l d l' d' e, cleared answer n l d None ->
  cleared answer (n + length d) l' d' e -> cleared answer n (l ++ l') (d ++ d') e.
Proof.
  intros answer n l d l' d' e C. remember None as x eqn:E. induction C as [n|n s l d e' A C IH|]; intros D.
  - cbn [length] in D. rewrite Nat.add_0_r in D. exact D.
  - cbn [app]. constructor; [exact A|]. apply (IH E). cbn [length] in D.
    rewrite Nat.add_succ_r in D. exact D.
  - discriminate E.
Qed.

Lemma cleared_stop : forall answer n l d l' x, cleared answer n l d (Some x) -> cleared answer n (l ++ l') d (Some x).
Proof.
  intros answer n l d l' x C. remember (Some x) as e eqn:E. induction C as [|n s l d e' A C IH|n s l A];
    [discriminate| |].
  - cbn [app]. constructor; [exact A|auto].
  - cbn [app]. injection E as <-. apply cl_error. exact A.
Qed.


(** Steps of an operation put together: calls made, error, and whether the
    status was left at NoManifests. *)
Definition upto (answer : nat -> N) (done l : list store) (r : result) (none : bool) : Prop :=
  exists d e, cleared answer (length done) l d e /\ fst r = done ++ d /\
    match e with Some x => snd r = External x
    | None => snd r = if none then NoManifests else Ok end.

Lemma upto_next : forall answer done l r none l' (f : result -> result) none',
  upto answer done l r none ->
  (goes_on (snd r) = true -> upto answer (fst r) l' (f r) none') ->
  upto answer done (l ++ l') (if negb (goes_on (snd r)) then r else f r) none'.
Proof.
  intros answer done l r none l' f none' (d & e & C & F & Q) H.
  destruct e as [x|].
  - rewrite Q. cbn [goes_on negb]. exists d, (Some x). split; [apply cleared_stop; exact C|]. split; [exact F|exact Q].
  - assert (G : goes_on (snd r) = true) by (rewrite Q; destruct none; reflexivity).
    rewrite G. cbn [negb]. destruct (H G) as (d' & e' & C' & F' & Q'). exists (d ++ d'), e'.
    rewrite F, app_length in C'. split; [apply cleared_app; assumption|]. split; [rewrite F', F, app_assoc; reflexivity|exact Q'].
Qed.

Lemma upto_manifests : forall answer l done,
  upto answer done (map Manifests l)
    (if length l =? 0 then (done, NoManifests) else clear_all answer (map Manifests l) done) (length l =? 0).
Proof.
  intros answer l done. destruct (length l =? 0) eqn:E.
  - destruct l; [|discriminate]. exists [], None. split; [constructor|]. split; [symmetry; apply app_nil_r|reflexivity].
  - destruct (clear_all_cleared answer (map Manifests l) done) as (d & e & C & Q). rewrite Q.
    exists d, e. split; [exact C|]. split; [reflexivity|]. destruct e; reflexivity.
Qed.

Lemma upto_some : forall answer l (r : result) (none : bool), snd r = (if none then NoManifests else Ok) ->
  upto answer (fst r) l (clear_some answer l r) (none && (length l =? 0)).
Proof.
  intros answer l r none E. destruct l as [|s l]; cbn [clear_some length].
  - rewrite andb_true_r. exists [], None. split; [constructor|]. split; [symmetry; apply app_nil_r|exact E].
  - rewrite andb_false_r. destruct (clear_all_cleared answer (s :: l) (fst r)) as (d & e & C & Q). rewrite Q.
    exists d, e. split; [exact C|]. split; [reflexivity|]. destruct e; reflexivity.
Qed.

Lemma upto_some_next : forall answer done l l' (r : result) none, upto answer done l r none ->
  upto answer done (l ++ l') (if negb (goes_on (snd r)) then r else clear_some answer l' r)
    (none && (length l' =? 0)).
Proof.
  intros answer done l l' r none U. apply upto_next with (none := none); [exact U|].
  intros G. apply upto_some. destruct U as (d & e & _ & _ & Q). destruct e as [x|]; [|exact Q].
  rewrite Q in G. discriminate G.
Qed.

Definition nothing (c : config) : bool :=
  (length (c_component c) =? 0) && (length (map State (c_state c)) =? 0) &&
  negb (c_riot c) && negb (c_aux c) &&
  negb (c_recovery c) && (length (map Keystore (c_keystores c)) =? 0).

Lemma upto_defaults : forall answer c done,
  upto answer done (stores RestoreDefaults c) (restore_defaults answer c done) (nothing c).
Proof.
  intros answer c done. unfold restore_defaults, stores. cbv zeta.
  assert (N : nothing c =
    (((((length (c_component c) =? 0) && (length (map State (c_state c)) =? 0)) &&
      (length (if c_riot c then [Certificates] else []) =? 0)) && (length (if c_aux c then [AuxKey] else []) =? 0)) &&
      (length (if c_recovery c then [RecoveryRegions] else []) =? 0)) && (length (map Keystore (c_keystores c)) =? 0)).
  { unfold nothing. destruct (c_riot c), (c_aux c), (c_recovery c); reflexivity. }
  rewrite N. clear N.
  apply upto_next with (none := length (c_bypass c) =? 0) (f := fun r => _); [apply upto_manifests|]. intros _.
  apply upto_next with (none := length (c_platform c) =? 0) (f := fun r => _); [apply upto_manifests|]. intros _.
  set (r := clear_component answer c _).
  assert (U : upto answer (fst (restore_platform answer c (fst (restore_bypass answer c done))))
    (map Manifests (c_component c)) r (length (c_component c) =? 0)) by apply upto_manifests.
  pose proof (upto_some_next _ _ _ (map State (c_state c)) _ _ U) as U1.
  pose proof (upto_some_next _ _ _ (if c_riot c then [Certificates] else []) _ _ U1) as U2.
  pose proof (upto_some_next _ _ _ (if c_aux c then [AuxKey] else []) _ _ U2) as U3.
  pose proof (upto_some_next _ _ _ (if c_recovery c then [RecoveryRegions] else []) _ _ U3) as U4.
  pose proof (upto_some_next _ _ _ (map Keystore (c_keystores c)) _ _ U4) as U5.
  rewrite !app_assoc.
  clear - U5.
  destruct (goes_on (snd r)) eqn:G0; cbn [negb] in U5 |- *;
    [|do 6 (rewrite ?G0 in U5; cbn [negb] in U5); exact U5].
  set (r1 := clear_some answer (map State (c_state c)) r) in *.
  destruct (goes_on (snd r1)) eqn:G1; cbn [negb] in U5 |- *;
    [|do 6 (rewrite ?G1 in U5; cbn [negb] in U5); exact U5].
  set (r2 := clear_some answer (if c_riot c then [Certificates] else []) r1) in *.
  destruct (goes_on (snd r2)) eqn:G2; cbn [negb] in U5 |- *;
    [|do 6 (rewrite ?G2 in U5; cbn [negb] in U5); exact U5].
  set (r3 := clear_some answer (if c_aux c then [AuxKey] else []) r2) in *.
  destruct (goes_on (snd r3)) eqn:G3; cbn [negb] in U5 |- *;
    [|do 6 (rewrite ?G3 in U5; cbn [negb] in U5); exact U5].
  exact U5.
Qed.

(** Something to clear besides bypass and platform manifests. *)
Definition more (c : config) : Prop :=
  c_component c <> [] \/ c_state c <> [] \/ c_riot c = true \/ c_aux c = true \/ c_recovery c = true \/
  c_keystores c <> [].

Lemma nothing_more : forall c, nothing c = false <-> more c.
Proof.
  intros [b p m s r a v k]. unfold nothing, more. cbn [c_component c_state c_riot c_aux c_recovery c_keystores].
  destruct m, s, r, a, v, k; cbn; split; intros H; try reflexivity; try discriminate; auto 8;
    try (left; discriminate); try (right; left; discriminate); try (do 5 right; discriminate);
    destruct H as [H|[H|[H|[H|[H|H]]]]]; congruence.
Qed.

(** For an operation that has something to clear, and has more than bypass
    and platform manifests if it is the one that restores the defaults. *)
Definition applies (o : operation) (c : config) : Prop :=
  match o with RestoreDefaults => more c | _ => stores o c <> [] end.

Lemma handler_upto : forall answer o c, exists d e,
  cleared answer 0 (stores o c) d e /\ fst (handler answer o c []) = d /\
  (forall x, e = Some x -> snd (handler answer o c []) = External x) /\
  (e = None -> applies o c -> snd (handler answer o c []) = Ok) /\
  (e = None -> ~ applies o c -> snd (handler answer o c []) = NoManifests \/ snd (handler answer o c []) = NoCerts).
Proof.
  intros answer o c.
  assert (M : forall l, let r := if length l =? 0 then ([], NoManifests) else clear_all answer (map Manifests l) [] in
    exists d e, cleared answer 0 (map Manifests l) d e /\ fst r = d /\
    (forall x, e = Some x -> snd r = External x) /\ (e = None -> map Manifests l <> [] -> snd r = Ok) /\
    (e = None -> ~ (map Manifests l <> []) -> snd r = NoManifests \/ snd r = NoCerts)).
  { intros l. cbv zeta. destruct (upto_manifests answer l []) as (d & e & C & F & Q). exists d, e.
    split; [exact C|]. split; [exact F|]. split; [intros x ->; exact Q|]. split; intros -> N.
    - etransitivity; [exact Q|]. destruct l; [destruct (N eq_refl)|reflexivity].
    - left. etransitivity; [exact Q|]. destruct l; [reflexivity|]. destruct N. discriminate. }
  destruct o; cbn [handler applies]; try apply M.
  - destruct (upto_defaults answer c []) as (d & e & C & F & Q). exists d, e.
    split; [exact C|]. split; [exact F|]. split; [intros x ->; exact Q|]. split; intros -> N; rewrite Q.
    + apply nothing_more in N. rewrite N. reflexivity.
    + left. destruct (nothing c) eqn:E; [reflexivity|]. apply nothing_more in E. contradiction.
  - cbn [stores]. unfold clear_certificates. destruct (c_riot c).
    + destruct (clear_all_cleared answer [Certificates] []) as (d & e & C & Q). rewrite Q. exists d, e.
      split; [exact C|]. split; [reflexivity|]. split; [intros x ->; reflexivity|].
      split; intros -> N; [reflexivity|]. destruct N. discriminate.
    + exists [], None. split; [constructor|]. split; [reflexivity|]. split; [discriminate|].
      split; intros _ N; [congruence|right; reflexivity].
Qed.

(** An operation clears its stores in order, each once, up to the first error,
    and touches nothing else.  It returns that error; a reset of the device is
    requested only for the platform configuration, and only if it was
    cleared. *)
Theorem C76_cleared : forall answer o c req done status req',
  execute answer o c req = (done, status, req') ->
  (exists e, cleared answer 0 (stores o c) done e /\ (forall x, e = Some x -> status = External x) /\
     (e = None -> status = Ok \/ status = NoManifests \/ status = NoCerts)) /\
  (req' = true <-> req = true \/ (o = ClearPlatform /\ status = Ok)).
Proof.
  intros answer o c req done status req' E. unfold execute in E.
  destruct (handler_upto answer o c) as (d & e & C & F & X & Y & Z).
  destruct (handler answer o c []) as [dn st]. cbn [fst snd] in *. injection E as <- <- <-. subst d. split.
  - exists e. split; [exact C|]. split; [exact X|]. intros N.
    assert (A : applies o c \/ ~ applies o c).
    { destruct o; cbn [applies]; try (destruct (stores _ c); [right; intros Q; apply Q; reflexivity|left; discriminate]).
      destruct (nothing c) eqn:G; [right|left; apply nothing_more; exact G].
      intros Q. apply nothing_more in Q. congruence. }
    destruct A as [A|A]; [left; exact (Y N A)|right; exact (Z N A)].
  - destruct st; destruct o; cbn [is_ok needs_reset andb]; split; intros H; auto; try tauto;
      destruct H as [H|(H & H')]; (exact H || discriminate).
Qed.
Print Assumptions C76_cleared.

(** Success means that everything was cleared. *)
Theorem C76_success : forall answer o c req done req',
  execute answer o c req = (done, Ok, req') ->
  done = stores o c /\ stores o c <> [] /\ forall n, n < length done -> answer n = 0%N.
Proof.
  intros answer o c req done req' E. pose proof (C76_cleared _ _ _ _ _ _ _ E) as ((e & C & X & _) & _).
  destruct e as [x|]; [specialize (X x eq_refl); discriminate|].
  split; [exact (cleared_all _ _ _ _ C)|]. split.
  - unfold execute in E. destruct (handler_upto answer o c) as (d & e & _ & _ & X' & Y & Z).
    destruct (handler answer o c []) as [dn st]. cbn [fst snd] in *. injection E as <- -> <-.
    assert (e = None) by (destruct e as [x|]; [specialize (X' x eq_refl); discriminate|reflexivity]).
    subst e. intros N.
    assert (A : ~ applies o c).
    { destruct o; cbn [applies]; try (intros Q; apply Q; exact N).
      intros Q. cbn [stores] in N. repeat (apply app_eq_nil in N; destruct N as (? & N)).
      unfold more in Q. destruct c as [b p m s r a v k]. cbn in *. destruct m, s, r, a, v, k; try discriminate.
      destruct Q as [Q|[Q|[Q|[Q|[Q|Q]]]]]; congruence. }
    destruct (Z eq_refl A); discriminate.
  - assert (G : forall n l d, cleared answer n l d None -> forall i, i < length d -> answer (n + i) = 0%N).
    { clear. intros n l d C. remember None as e eqn:E. induction C as [|n s l d e A C IH|]; intros i L.
      - cbn in L. lia.
      - destruct i as [|i]; [rewrite Nat.add_0_r; exact A|]. rewrite Nat.add_succ_r. apply (IH E i). cbn in L. lia.
      - discriminate. }
    intros n L. exact (G 0 _ _ C n L).
Qed.
Print Assumptions C76_success.

(** And if every store can be cleared it is a success, provided that there is
    something to clear, and in the case of the defaults something besides
    bypass and platform manifests. *)
Theorem C76_complete : forall answer o c req, (forall n, answer n = 0%N) -> applies o c ->
  execute answer o c req = (stores o c, Ok, req || match o with ClearPlatform => true | _ => false end).
Proof.
  intros answer o c req A H. unfold execute.
  destruct (handler_upto answer o c) as (d & e & C & F & X & Y & _).
  assert (N : e = None).
  { clear - A C. induction C as [|n s l d e B C IH|n s l B]; auto. destruct (B (A n)). }
  subst e. pose proof (cleared_all _ _ _ _ C) as ->.
  destruct (handler answer o c []) as [dn st]. cbn [fst snd] in *. subst dn. rewrite (Y eq_refl H).
  destruct o, req; reflexivity.
Qed.
Print Assumptions C76_complete.

(** The full statement fails: restoring the defaults of a device that has
    bypass manifests and nothing else clears them all and then reports that
    there are no manifests, because the status of clearing the (absent)
    component manifests is what is returned (config_reset.c:142-145, 182). *)
Theorem C76_complete_refuted : exists c, config_init c = Ok /\ stores RestoreDefaults c <> [] /\
  execute (fun _ => 0%N) RestoreDefaults c false = (stores RestoreDefaults c, NoManifests, false).
Proof.
  exists (mkConfig [1; 2] [3] [] [] false false false []). split; [reflexivity|]. split; [discriminate|reflexivity].
Qed.
Print Assumptions C76_complete_refuted.

Definition demo : config := mkConfig [1; 2] [3] [] [4] true false true [5].
Example C76_demo :
  applies RestoreDefaults demo /\ config_init demo = Ok /\
  execute (fun _ => 0%N) RestoreDefaults demo false =
    ([Manifests 1; Manifests 2; Manifests 3; State 4; Certificates; RecoveryRegions; Keystore 5], Ok, false) /\
  execute (fun n => if n =? 3 then 7%N else 0%N) RestoreDefaults demo false =
    ([Manifests 1; Manifests 2; Manifests 3; State 4], External 7, false) /\
  execute (fun _ => 0%N) ClearPlatform demo false = ([Manifests 3], Ok, true).
Proof.
  split; [right; left; discriminate|]. vm_compute. repeat split.
Qed.
