(** C89: authorized preparation of an update. *)
From Coq Require Import List NArith Bool Arith Lia.
From Verif Require Import Base PrepUpdate_Model PrepUpdate_Spec.
Import ListNotations.
Local Open Scope nat_scope.

Lemma parse_asks : forall d n h digest, parse d = Some (n, h, digest) <-> asks d n h digest.
Proof.
  intros d n h digest. split.
  - unfold parse, at_. destruct (length d <? 10) eqn:L; [discriminate|]. apply Nat.ltb_ge in L.
    do 9 (destruct d as [|? d]; [cbn in L; lia|]). cbn [nth skipn length].
    destruct (n0 =? 80)%N eqn:A0; [|discriminate]. destruct (n1 =? 85)%N eqn:A1; [|discriminate].
    destruct (n2 =? 87)%N eqn:A2; [|discriminate]. destruct (n3 =? 70)%N eqn:A3; [|discriminate]. cbn [andb negb].
    apply N.eqb_eq in A0, A1, A2, A3. subst n0 n1 n2 n3.
    replace (S (S (S (S (S (S (S (S (S (length d))))))))) - 9) with (length d) by lia.
    intros H. assert (T : exists h0, (n8, h0) = (0%N, Sha256) \/ (n8, h0) = (1%N, Sha384) \/ (n8, h0) = (2%N, Sha512)).
    { destruct n8 as [|[[]|[]|]]; try discriminate; eauto. }
    destruct T as (h0 & [T|[T|T]]); injection T as -> ->; cbn [hash_len] in H;
      (match type of H with (if ?c then _ else _) = _ => destruct c eqn:E; [|discriminate] end);
      apply Nat.eqb_eq in E; injection H as <- <- <-.
    + apply (Asks n4 n5 n6 n7 0%N Sha256 d). left. congruence.
    + apply (Asks n4 n5 n6 n7 1%N Sha384 d). right. left. congruence.
    + apply (Asks n4 n5 n6 n7 2%N Sha512 d). right. right. congruence.
  - intros H. destruct H as [b0 b1 b2 b3 t h digest T]. unfold parse, at_.
    assert (LD : 32 <= length digest) by (destruct T as [T|[T|T]]; injection T; intros; lia).
    rewrite app_length. cbn [length]. destruct (9 + length digest <? 10) eqn:L; [apply Nat.ltb_lt in L; lia|].
    replace (9 + length digest - 9) with (length digest) by lia. cbn [app nth skipn N.eqb Pos.eqb andb negb].
    destruct T as [T|[T|T]]; injection T; intros LE -> ->; rewrite LE; reflexivity.
Qed.

(** Staging is prepared only for a well formed payload, once, for the image length
    it names.  The digest is set only after that worked and the update
    control reported success, to the one in the payload; nothing else is called. *)
Theorem C89_calls : forall timeout e d,
  let '(_, calls) := execute timeout e d in
  calls = [] \/
  exists n h digest, asks d n h digest /\
    (calls = [PrepareStaging n] \/
     calls = [PrepareStaging n; SetDigest h digest] /\ e_prepare e = 0%N /\
     exists before expired after, e_looks e = before ++ (Success, expired) :: after /\
       forall s x, In (s, x) before -> s = InProgress /\ (timeout = true -> x = false)).
Proof.
  intros timeout e d. unfold execute. destruct (parse d) as [[[n h] digest]|] eqn:P; [|now left]. apply parse_asks in P.
  destruct (timeout && negb (e_timeout e =? 0)%N); [now left|].
  destruct (e_prepare e =? 0)%N eqn:EP; cbn [negb]; [|right; exists n, h, digest; split; [exact P | now left]].
  apply N.eqb_eq in EP.
  assert (W : forall l, wait timeout l = Some Success -> exists before expired after, l = before ++ (Success, expired) :: after /\
       forall s x, In (s, x) before -> s = InProgress /\ (timeout = true -> x = false)).
  { induction l as [|[s x] l IH]; cbn [wait]; [discriminate|]. destruct s; try discriminate.
    - intros _. exists [], x, l. split; [reflexivity|]. intros s y [].
    - destruct (negb timeout || negb x) eqn:G; [|discriminate]. intros H. destruct (IH H) as (b & y & a & -> & B).
      exists ((InProgress, x) :: b), y, a. split; [reflexivity|]. intros s z [I|I]; [|now apply B].
      injection I as <- <-. split; [reflexivity|]. intros ->. cbn in G. now destruct x. }
  destruct (wait timeout (e_looks e)) as [[]|] eqn:WT; right; exists n, h, digest; (split; [exact P|]); try (now left). right. split; [reflexivity|]. split; [exact EP|]. now apply W.
Qed.
Print Assumptions C89_calls.

(** Success is reported exactly if the payload is well formed and every step worked: so the
    staging area is ready and the digest is set.  Otherwise the error is that of the
    step that failed. *)
Theorem C89_result : forall timeout e d,
  (fst (execute timeout e d) = Some Ok <->
   exists n h digest, asks d n h digest /\ (timeout = true -> e_timeout e = 0%N) /\ e_digest e = 0%N /\
     snd (execute timeout e d) = [PrepareStaging n; SetDigest h digest]) /\
  ((forall n h digest, ~ asks d n h digest) -> execute timeout e d = (Some NotValid, [])) /\
  (validate d = Ok <-> exists n h digest, asks d n h digest) /\
  (forall n h digest, asks d n h digest -> (timeout = true -> e_timeout e = 0%N) ->
     (e_prepare e <> 0%N -> fst (execute timeout e d) = Some (Error (e_prepare e))) /\
     (e_prepare e = 0%N ->
        (forall x l, e_looks e = (Other, x) :: l -> fst (execute timeout e d) = Some ExecuteFailed) /\
        (forall x l, e_looks e = (Success, x) :: l -> e_digest e <> 0%N -> fst (execute timeout e d) = Some (Error (e_digest e))))).
Proof.
  intros timeout e d. unfold execute, validate. destruct (parse d) as [[[n h] digest]|] eqn:P.
  - apply parse_asks in P as P'.
    assert (U : forall n' h' g', asks d n' h' g' -> (n', h', g') = (n, h, digest)) by (intros n' h' g' A; apply parse_asks in A; congruence).
    split; [|split; [|split]].
    + destruct (timeout && negb (e_timeout e =? 0)%N) eqn:T; cbn [fst snd].
      { split; [discriminate|]. intros (? & ? & ? & _ & _ & _ & H). discriminate. }
      assert (TT : timeout = true -> e_timeout e = 0%N) by (intros ->; cbn in T; destruct (N.eqb_spec (e_timeout e) 0); [assumption|discriminate]).
      destruct (e_prepare e =? 0)%N; cbn [negb fst snd].
      2: { split; [discriminate|]. intros (? & ? & ? & _ & _ & _ & H). discriminate. }
      destruct (wait timeout (e_looks e)) as [[]|]; cbn [fst snd].
      * destruct (N.eqb_spec (e_digest e) 0).
        -- split; [|reflexivity]. intros _. exists n, h, digest. now repeat split.
        -- split; [discriminate|]. intros (? & ? & ? & _ & _ & H & _). congruence.
      * split; [discriminate|]. intros (? & ? & ? & _ & _ & _ & H). discriminate.
      * split; [discriminate|]. intros (? & ? & ? & _ & _ & _ & H). discriminate.
      * split; [discriminate|]. intros (? & ? & ? & _ & _ & _ & H). discriminate.
    + intros H. now elim (H n h digest).
    + split; [intros _; now exists n, h, digest | reflexivity].
    + intros n' h' g' A TT. assert (T : timeout && negb (e_timeout e =? 0)%N = false) by (destruct timeout; [rewrite TT by reflexivity; reflexivity | reflexivity]).
      rewrite T. split.
      * intros E. apply N.eqb_neq in E as E'. rewrite E'. reflexivity.
      * intros E. rewrite E. cbn [N.eqb negb]. split; intros x l ->; cbn [wait]; [reflexivity|]. intros G. apply N.eqb_neq in G as G'. cbn [fst]. now rewrite G'.
  - assert (NA : forall n h g, ~ asks d n h g) by (intros n h g A; apply parse_asks in A; congruence).
    split; [|split; [|split]].
    + split; [discriminate|]. intros (n & h & g & A & _). now elim (NA n h g).
    + reflexivity.
    + split; [discriminate|]. intros (n & h & g & A). now elim (NA n h g).
    + intros n h g A. now elim (NA n h g).
Qed.
Print Assumptions C89_result.

(** If the update control reports success after looks within the timeout that show
    progress, the digest is set; if it reports a failure, it is not. *)
Theorem C89_works : forall timeout e d n h digest before x after,
  asks d n h digest -> (timeout = true -> e_timeout e = 0%N) -> e_prepare e = 0%N ->
  (forall s y, In (s, y) before -> s = InProgress /\ (timeout = true -> y = false)) ->
  (e_looks e = before ++ (Success, x) :: after ->
   execute timeout e d = (Some (if (e_digest e =? 0)%N then Ok else Error (e_digest e)), [PrepareStaging n; SetDigest h digest])) /\
  (e_looks e = before ++ (Other, x) :: after -> execute timeout e d = (Some ExecuteFailed, [PrepareStaging n])).
Proof.
  intros timeout e d n h digest before x after A T P B. apply parse_asks in A. unfold execute. rewrite A, P. cbn [N.eqb negb].
  assert (T' : timeout && negb (e_timeout e =? 0)%N = false) by (destruct timeout; [rewrite T by reflexivity; reflexivity | reflexivity]).
  rewrite T'. assert (W : forall s, s <> InProgress -> wait timeout (before ++ (s, x) :: after) = Some s).
  { intros s NS. revert B. clear -NS. induction before as [|[s' y] b IH]; intros B; cbn [app wait].
    - destruct s; [reflexivity | congruence | reflexivity].
    - destruct (B s' y) as [-> Y]; [now left|]. assert (G : negb timeout || negb y = true) by (destruct timeout; [now rewrite Y by reflexivity | reflexivity]).
      rewrite G. apply IH. intros s'' z I. apply B. now right. }
  split; intros L; rewrite L, W by discriminate; reflexivity.
Qed.
Print Assumptions C89_works.

(** With a timeout, the first look after it has passed ends the wait. *)
Theorem C89_timeout : forall e d n h digest before after,
  asks d n h digest -> e_timeout e = 0%N -> e_prepare e = 0%N ->
  (forall s x, In (s, x) before -> s = InProgress) -> e_looks e = before ++ (InProgress, true) :: after ->
  execute true e d = (Some ExecuteFailed, [PrepareStaging n]).
Proof.
  intros e d n h digest before after A T P B L. apply parse_asks in A. unfold execute. rewrite A, T, P. cbn [N.eqb negb andb].
  assert (W : forall before, (forall s x, In (s, x) before -> s = InProgress) -> wait true (before ++ (InProgress, true) :: after) = Some InProgress).
  { clear. induction before as [|[s x] b IH]; intros B; [reflexivity|]. rewrite (B s x) by now left. cbn [app wait]. destruct x; cbn [negb orb]; [reflexivity|].
    apply IH. intros s' y I. apply (B s' y). now right. }
  rewrite L, W by exact B. reflexivity.
Qed.
Print Assumptions C89_timeout.

(** REFUTED: that execution always ends.  Without a timeout it waits as long as the
    update control reports progress, whatever the clock says. *)
Theorem C89_stuck_refuted : forall e d n h digest,
  asks d n h digest -> e_prepare e = 0%N -> (forall s x, In (s, x) (e_looks e) -> s = InProgress) -> fst (execute false e d) = None.
Proof.
  intros e d n h digest A P B. apply parse_asks in A. unfold execute. rewrite A, P. cbn [N.eqb negb andb].
  assert (W : forall l, (forall s x, In (s, x) l -> s = InProgress) -> wait false l = None).
  { clear. induction l as [|[s x] b IH]; intros B; [reflexivity|]. rewrite (B s x) by now left. cbn [wait negb orb].
    apply IH. intros s' y I. apply (B s' y). now right. }
  rewrite W by exact B. reflexivity.
Qed.
Print Assumptions C89_stuck_refuted.

(** Non-vacuity. *)
Definition pl (t : N) (n : nat) : list N := ([80; 85; 87; 70; 0; 1; 0; 0; t] ++ repeat 7 n)%N.
Example C89_example_asks : asks (pl 1 48) 256 Sha384 (repeat 7%N 48).
Proof. apply (Asks 0 1 0 0 1%N Sha384 (repeat 7%N 48)). right. left. reflexivity. Qed.
Example C89_example :
  execute true (Env 0 0 [(InProgress, false); (Success, true)] 0) (pl 0 32) = (Some Ok, [PrepareStaging 256; SetDigest Sha256 (repeat 7%N 32)]) /\
  execute true (Env 0 0 [(InProgress, false); (InProgress, true); (Success, true)] 0) (pl 0 32) = (Some ExecuteFailed, [PrepareStaging 256]) /\
  execute false (Env 5 0 [(InProgress, true); (Success, true)] 9) (pl 2 64) = (Some (Error 9%N), [PrepareStaging 256; SetDigest Sha512 (repeat 7%N 64)]) /\
  execute true (Env 5 0 [] 0) (pl 0 32) = (Some (Error 5%N), []) /\
  validate (pl 0 33) = NotValid /\ validate (pl 3 32) = NotValid /\ validate (pl 1 48) = Ok.
Proof. vm_compute. repeat split. Qed.
