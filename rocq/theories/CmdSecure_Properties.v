(** C86: sessions and dispatch of Cerberus requests. *)
From Coq Require Import List NArith Bool Arith Lia.
From Verif Require Import Base CmdSecure_Model CmdSecure_Spec.
Import ListNotations.
Local Open Scope nat_scope.

Lemma byte_check : forall P : N -> bool, forallb P (map N.of_nat (seq 0 256)) = true -> forall b, (b < 256)%N -> P b = true.
Proof.
  intros P H b L. rewrite forallb_forall in H. apply H. apply in_map_iff. exists (N.to_nat b).
  split; [apply N2Nat.id|]. apply in_seq. lia.
Qed.

Lemma byte0 : forall b, (b < 256)%N -> (b mod 128 =? 126)%N = true -> N.testbit b 7 = false -> b = 126%N.
Proof.
  intros b L A B. pose proof (byte_check (fun b => negb ((b mod 128 =? 126)%N && negb (N.testbit b 7)) || (b =? 126)%N) eq_refl b L) as H.
  cbv beta in H. rewrite A, B in H. cbn in H. now apply N.eqb_eq.
Qed.

Lemma byte3 : forall b, (b < 256)%N -> (b mod 32 =? 0)%N = true -> N.testbit b 6 = false ->
  b = (128 * (b / 128 mod 2) + if N.testbit b 5 then 32 else 0)%N.
Proof.
  intros b L A B.
  pose proof (byte_check (fun b => negb ((b mod 32 =? 0)%N && negb (N.testbit b 6)) || (b =? 128 * (b / 128 mod 2) + if N.testbit b 5 then 32 else 0)%N) eq_refl b L) as H.
  cbv beta in H. rewrite A, B in H. cbn [negb andb orb] in H. now apply N.eqb_eq.
Qed.

Lemma five : forall (b : list N), 5 <= length b -> exists a0 a1 a2 a3 a4 t, b = a0 :: a1 :: a2 :: a3 :: a4 :: t.
Proof. intros b L. do 5 (destruct b as [|? b]; [cbn in L; lia|]). repeat eexists. Qed.

Lemma parse_plain_ok : forall m, (forall x, In x (buf m) -> (x < 256)%N) -> len m <= length (buf m) ->
  (forall m' t, parse_plain m = inr (m', t) -> 5 <= len m /\ plain_request (buf m) (rq m) t /\ m' = Msg (buf m) (len m) false (maxr m)) /\
  (parse_plain m = inl EncryptionUnsupported -> 5 <= len m /\ sealed_request (buf m) (rq m) (b_at m 4)).
Proof.
  intros m BY LE. unfold parse_plain. destruct (len m <? 5) eqn:L; [split; intros; discriminate|]. apply Nat.ltb_ge in L.
  destruct (five (buf m) ltac:(lia)) as (a0 & a1 & a2 & a3 & a4 & t & E).
  unfold rq, b_at, plain_request, sealed_request. rewrite E in BY |- *. cbn [nth].
  destruct (a0 mod 128 =? 126)%N eqn:A0; cbn [negb orb]; [|split; intros; discriminate].
  destruct (N.testbit a0 7) eqn:A7; cbn [orb]; [split; intros; discriminate|].
  destruct (a1 =? 20)%N eqn:A1; cbn [negb orb andb]; [|split; intros; discriminate].
  destruct (a2 =? 20)%N eqn:A2; cbn [negb orb andb]; [|split; intros; discriminate].
  destruct (a3 mod 32 =? 0)%N eqn:A3; cbn [negb orb]; [|split; intros; discriminate].
  destruct (N.testbit a3 6) eqn:A6; [split; intros; discriminate|].
  pose proof (byte0 a0 ltac:(apply BY; cbn; tauto) A0 A7) as ->. apply N.eqb_eq in A1, A2. subst a1 a2.
  pose proof (byte3 a3 ltac:(apply BY; cbn; tauto) A3 A6) as H3.
  assert (R : (a3 / 128 mod 2 < 2)%N) by (apply N.mod_lt; discriminate).
  destruct (N.testbit a3 5) eqn:A5.
  - split; [intros; discriminate|]. intros _. split; [exact L|]. exists t. split; [|exact R]. rewrite <- H3. reflexivity.
  - split; [|intros; discriminate]. intros m' t' H. inversion H; subst m' t'. split; [exact L|]. split; [|reflexivity].
    exists t. split; [|exact R]. rewrite N.add_0_r in H3. rewrite <- H3. reflexivity.
Qed.

Lemma find_registered : forall types type i h, find types 0 type = Some (i, h) <-> registered types type i h.
Proof.
  assert (G : forall types k type i h, find types k type = Some (i, h) <-> k <= i /\ registered types type (i - k) h).
  { induction types as [|[t x] types IH]; intros k type i h; cbn [find].
    - split; [discriminate|]. intros (_ & H & _). destruct (i - k); discriminate.
    - destruct (N.eqb_spec t type) as [->|NE].
      + split.
        * intros H. injection H as <- <-. split; [lia|]. rewrite Nat.sub_diag. split; [reflexivity|]. intros j ? ? J. lia.
        * intros (L & H & F). destruct (i - k) as [|n] eqn:D.
          -- cbn in H. injection H as ->. do 2 f_equal. lia.
          -- exfalso. apply (F 0 type x ltac:(lia) eq_refl eq_refl).
      + rewrite IH. split.
        * intros (L & H & F). split; [lia|]. replace (i - k) with (S (i - S k)) by lia. split; [exact H|].
          intros [|j] u y J N; [cbn in N; congruence|]. apply (F j u y); [lia|exact N].
        * intros (L & H & F). destruct (i - k) as [|n] eqn:D; [cbn in H; congruence|].
          split; [lia|]. replace (i - S k) with n by lia. split; [exact H|]. intros j u y J N. apply (F (S j) u y); [lia|exact N]. }
  intros. rewrite G, Nat.sub_0_r. intuition lia.
Qed.

(** A handler is called only for a well formed request.  A plain one reaches it as
    sent, marked as not protected; a sealed one only if the session could decrypt it,
    as decrypted and marked as protected, with room kept for the trailer.  It is
    the handler registered first for the command. *)
Theorem C86_handler : forall value decrypt encrypt types m i seen,
  (forall x, In x (buf m) -> (x < 256)%N) -> len m <= length (buf m) ->
  snd (process value decrypt encrypt types m) = Some (i, seen) ->
  5 <= len m /\
  ((exists r cmd h, plain_request (buf m) r cmd /\ registered types cmd i h /\ seen = Msg (buf m) (len m) false (maxr m)) \/
   (exists r cmd b l h, sealed_request (buf m) r cmd /\ decrypt m = inr (b, l) /\ registered types (nth 4 b 0%N) i h /\
      buf seen = b /\ len seen = l /\ enc seen = true /\ ((28 <= maxr m < 2 ^ 64)%N -> maxr seen = (maxr m - 28)%N))).
Proof.
  intros value decrypt encrypt types m i seen BY LE H. unfold process in H.
  destruct (parse_plain_ok m BY LE) as [PP PE].
  destruct (parse decrypt m) as [e|[m1 type]] eqn:P; [discriminate|].
  destruct (find types 0 type) as [[j h]|] eqn:F; [|discriminate].
  destruct (h m1) as [r m'] eqn:HM. cbn [snd] in H. injection H as -> ->. apply find_registered in F.
  unfold parse in P. destruct (parse_plain m) as [c|[m2 t2]] eqn:Q.
  - destruct c; try discriminate. destruct (PE eq_refl) as [L S]. split; [exact L|]. right.
    destruct (decrypt m) as [e|[b l]] eqn:D; [discriminate|]. cbv zeta in P. inversion P; subst seen type. cbn in F.
    exists (rq m), (b_at m 4), b, l, h. split; [exact S|]. split; [reflexivity|]. split; [exact F|]. do 3 (split; [reflexivity|]). cbn [maxr]. intros M. unfold SIZE, TRAILER.
    replace (maxr m + 2 ^ 64 - 28)%N with (maxr m - 28 + 1 * 2 ^ 64)%N by lia. rewrite N.mod_add by discriminate. apply N.mod_small. lia.
  - inversion P; subst m2 t2. destruct (PP _ _ eq_refl) as (L & S & E). split; [exact L|]. left. exists (rq m), type, h. split; [exact S|]. split; [exact F | exact E].
Qed.
Print Assumptions C86_handler.

(** A sealed request is never answered in the clear: if processing succeeds, the
    message is what the session made of the response, with the bit for encryption;
    if decrypting or encrypting fails, so does processing. *)
Theorem C86_sealed : forall value decrypt encrypt types m r cmd,
  5 <= len m -> sealed_request (buf m) r cmd -> keeps_protection types ->
  let '(status, m', _) := process value decrypt encrypt types m in
  (status = Ok ->
     exists b l m0 b' l', decrypt m = inr (b, l) /\ encrypt m0 = inr (b', l') /\ enc m0 = true /\
       ((maxr m < 2 ^ 64)%N -> maxr m0 = maxr m /\ maxr m' = maxr m) /\
       len m' = l' /\ (4 <= length b' -> buf m' = firstn 3 b' ++ [N.setbit (nth 3 b' 0%N) 5] ++ skipn 4 b')) /\
  (forall e, decrypt m = inl e -> status = Error e /\ m' = m).
Proof.
  intros value decrypt encrypt types m r cmd L (rest & E & R) K.
  assert (P : parse_plain m = inl EncryptionUnsupported).
  { unfold parse_plain, b_at. rewrite E. destruct (len m <? 5) eqn:Q; [apply Nat.ltb_lt in Q; lia|].
    assert (RR : r = 0%N \/ r = 1%N) by lia. destruct RR as [-> | ->]; reflexivity. }
  unfold process, parse. rewrite P.
  destruct (decrypt m) as [e|[b l]] eqn:D.
  { split; [intros; discriminate|]. intros e' He. injection He as ->. now split. }
  cbv zeta. set (m1 := Msg b l true _). 
  assert (HR : forall c t m2, enc m2 = true -> maxr m2 = maxr m1 ->
     let '(status, m') := handle_result value encrypt c t m2 in
     status = Ok -> exists m0 b' l', encrypt m0 = inr (b', l') /\ enc m0 = true /\
       ((maxr m < 2 ^ 64)%N -> maxr m0 = maxr m /\ maxr m' = maxr m) /\
       len m' = l' /\ (4 <= length b' -> buf m' = firstn 3 b' ++ [N.setbit (nth 3 b' 0%N) 5] ++ skipn 4 b')).
  { intros c t m2 E2 M2. unfold handle_result. cbv zeta.
    assert (E3 : enc (result_plain value c t m2) = true) by (unfold result_plain, error_response; destruct c; try exact E2; destruct (len m2 =? 0); exact E2).
    assert (M3 : maxr (result_plain value c t m2) = maxr m1) by (unfold result_plain, error_response; destruct c; try exact M2; destruct (len m2 =? 0); exact M2).
    rewrite E3. set (m0 := Msg _ _ _ _). destruct (encrypt m0) as [e|[b' l']] eqn:EN; [discriminate|].
    intros _. exists m0, b', l'. split; [exact EN|]. split; [reflexivity|]. cbn [maxr buf len]. split.
    - intros B. assert (X : maxr m0 = maxr m).
      { unfold m0. cbn [maxr]. rewrite M3. unfold m1. cbn [maxr]. unfold TRAILER. rewrite N.add_mod_idemp_l by discriminate.
        replace (maxr m + SIZE - 28 + 28)%N with (maxr m + 1 * SIZE)%N by (unfold SIZE; lia). rewrite N.mod_add by discriminate.
        apply N.mod_small. exact B. }
      split; exact X.
    - split; [reflexivity|]. intros _. reflexivity. }
  destruct (find types 0 (b_at m1 4)) as [[i h]|] eqn:F.
  - destruct (h m1) as [c m2] eqn:HM.
    assert (I : In (b_at m1 4, h) types) by (apply find_registered in F; destruct F as [F _]; eapply nth_error_In; exact F).
    destruct (K _ _ m1 I) as [K1 K2]. rewrite HM in K1, K2. cbn [snd] in K1, K2.
    specialize (HR c (b_at m1 4) m2 K1 K2). destruct (handle_result value encrypt c (b_at m1 4) m2) as [st m'].
    split; [|intros; discriminate]. intros S. destruct (HR S) as (m0 & b' & l' & H). exists b, l, m0, b', l'. split; [reflexivity|exact H].
  - specialize (HR UnknownType (b_at m1 4) m1 eq_refl eq_refl). destruct (handle_result value encrypt UnknownType (b_at m1 4) m1) as [st m'].
    split; [|intros; discriminate]. intros S. destruct (HR S) as (m0 & b' & l' & H). exists b, l, m0, b', l'. split; [reflexivity|exact H].
Qed.
Print Assumptions C86_sealed.

Lemma result_answers : forall value c cmd out, (cmd < 256)%N -> answers value cmd c out (result_plain value c cmd out).
Proof.
  intros value c cmd out C. unfold answers, result_plain, error_response.
  destruct c; try (split; reflexivity). destruct (len out =? 0); split; try reflexivity.
  cbn [buf]. rewrite (N.mod_small cmd 256 C). reflexivity.
Qed.

(** What is encrypted is the answer of the handler to the decrypted request, made as for
    a plain one, with the whole room of the request; an unknown command gets an
    error message, encrypted too. *)
Theorem C86_sealed_answer : forall value decrypt encrypt types m r cmd b l,
  5 <= len m -> sealed_request (buf m) r cmd -> keeps_protection types ->
  decrypt m = inr (b, l) -> (nth 4 b 0 < 256)%N -> (maxr m < 2 ^ 64)%N ->
  let seen := Msg b l true ((maxr m + 2 ^ 64 - 28) mod 2 ^ 64)%N in
  exists answer call,
    enc answer = true /\ maxr answer = maxr m /\
    process value decrypt encrypt types m =
      (match encrypt answer with
       | inl e => (Error e, answer)
       | inr (b', l') => (Ok, Msg (splice b' 3 [N.setbit (nth 3 b' 0%N) 5]) l' true (maxr m))
       end, call) /\
    match call with
    | Some (i, s) => s = seen /\ exists h, registered types (nth 4 b 0%N) i h /\
        answers value (nth 4 b 0%N) (fst (h seen)) (snd (h seen)) answer
    | None => (forall i h, ~ registered types (nth 4 b 0%N) i h) /\ answers value (nth 4 b 0%N) UnknownType seen answer
    end.
Proof.
  intros value decrypt encrypt types m r cmd b l L (rest & E & R) K D C M seen.
  assert (P : parse_plain m = inl EncryptionUnsupported).
  { unfold parse_plain, b_at. rewrite E. destruct (len m <? 5) eqn:Q; [apply Nat.ltb_lt in Q; lia|].
    assert (RR : r = 0%N \/ r = 1%N) by lia. destruct RR as [-> | ->]; reflexivity. }
  assert (PS : parse decrypt m = inr (seen, nth 4 b 0%N)) by (unfold parse; rewrite P, D; reflexivity).
  unfold process. rewrite PS.
  assert (HR : forall c m2, enc m2 = true -> maxr m2 = maxr seen ->
     exists answer, enc answer = true /\ maxr answer = maxr m /\
       handle_result value encrypt c (nth 4 b 0%N) m2 =
         match encrypt answer with
         | inl e => (Error e, answer)
         | inr (b', l') => (Ok, Msg (splice b' 3 [N.setbit (nth 3 b' 0%N) 5]) l' true (maxr m))
         end /\ answers value (nth 4 b 0%N) c m2 answer).
  { intros c m2 E2 M2. pose proof (result_answers value c (nth 4 b 0%N) m2 C) as A. unfold handle_result. cbv zeta.
    assert (E3 : enc (result_plain value c (nth 4 b 0%N) m2) = true) by (unfold result_plain, error_response; destruct c; try exact E2; destruct (len m2 =? 0); exact E2).
    assert (M3 : maxr (result_plain value c (nth 4 b 0%N) m2) = maxr seen) by (unfold result_plain, error_response; destruct c; try exact M2; destruct (len m2 =? 0); exact M2).
    destruct (result_plain value c (nth 4 b 0%N) m2) as [rb rl re rm]. cbn [enc maxr buf len] in *. subst re rm.
    assert (X : ((maxr seen + TRAILER) mod SIZE = maxr m)%N).
    { unfold seen. cbn [maxr]. change (2 ^ 64)%N with SIZE. unfold TRAILER. rewrite N.add_mod_idemp_l by discriminate.
      replace (maxr m + SIZE - 28 + 28)%N with (maxr m + 1 * SIZE)%N by (unfold SIZE; lia). rewrite N.mod_add by discriminate.
      apply N.mod_small. exact M. }
    rewrite X. exists (Msg rb rl true (maxr m)). split; [reflexivity|]. split; [reflexivity|]. split; [reflexivity|].
    exact A. }
  destruct (find types 0 (nth 4 b 0%N)) as [[i h]|] eqn:F.
  - apply find_registered in F. assert (I : In (nth 4 b 0%N, h) types) by (destruct F as [F _]; eapply nth_error_In; exact F).
    destruct (K _ _ seen I) as [K1 K2]. destruct (h seen) as [c m2] eqn:HM. cbn [snd] in K1, K2.
    destruct (HR c m2 K1 K2) as (answer & A1 & A2 & A3 & A4). exists answer, (Some (i, seen)). rewrite A3.
    split; [exact A1|]. split; [exact A2|]. split; [reflexivity|]. split; [reflexivity|]. exists h. split; [exact F|]. rewrite HM. exact A4.
  - destruct (HR UnknownType seen eq_refl eq_refl) as (answer & A1 & A2 & A3 & A4). exists answer, None. rewrite A3.
    split; [exact A1|]. split; [exact A2|]. split; [reflexivity|]. split; [|exact A4].
    intros i h H. apply find_registered in H. congruence.
Qed.
Print Assumptions C86_sealed_answer.

(** A plain request is always answered, in the clear and never encrypted: with the
    response of the handler under a good header for its command; with a
    message that says success if it made none; with an error message with the
    failure of the handler, or for an unknown command. *)
Theorem C86_plain : forall value decrypt encrypt types m r cmd,
  5 <= len m -> 10 <= length (buf m) -> plain_request (buf m) r cmd -> (cmd < 256)%N -> keeps_protection types ->
  let seen := Msg (buf m) (len m) false (maxr m) in
  let '(status, m', call) := process value decrypt encrypt types m in
  status = Ok /\ enc m' = false /\
  match call with
  | Some (i, s) => s = seen /\ exists h, registered types cmd i h /\
      answers value cmd (fst (h seen)) (snd (h seen)) m'
  | None => (forall i h, ~ registered types cmd i h) /\
      len m' = 10 /\ buf m' = [126; 20; 20; 128 * r; 127; 4]%N ++ le32 (value UnknownType) ++ skipn 10 (buf m)
  end.
Proof.
  intros value decrypt encrypt types m r cmd L LB (rest & E & R) C K seen.
  assert (RR : r = 0%N \/ r = 1%N) by lia.
  assert (P : parse_plain m = inr (seen, cmd)).
  { unfold parse_plain, b_at, seen. rewrite E. destruct (len m <? 5) eqn:Q; [apply Nat.ltb_lt in Q; lia|].
    destruct RR as [-> | ->]; reflexivity. }
  unfold process, parse. rewrite P.
  destruct (find types 0 cmd) as [[i h]|] eqn:F.
  - assert (I : In (cmd, h) types) by (apply find_registered in F; destruct F as [F' _]; eapply nth_error_In; exact F').
    destruct (K _ _ seen I) as [K1 K2]. destruct (h seen) as [c out] eqn:HM. cbn [snd] in K1, K2.
    assert (E3 : enc (result_plain value c cmd out) = false) by (unfold result_plain, error_response; destruct c; try exact K1; destruct (len out =? 0); exact K1).
    unfold handle_result. cbv zeta. rewrite E3. split; [reflexivity|]. split; [exact E3|]. split; [reflexivity|].
    exists h. split; [now apply find_registered|]. rewrite HM. now apply result_answers.
  - unfold handle_result. cbv zeta. cbn [result_plain error_response enc seen]. split; [reflexivity|]. split; [reflexivity|]. split.
    + intros i h H. apply find_registered in H. congruence.
    + split; [reflexivity|]. cbn [buf error_response]. unfold rq, b_at. cbn [buf]. unfold splice. cbn [firstn app length].
      change (buf seen) with (buf m). rewrite E. destruct RR as [-> | ->]; reflexivity.
Qed.
Print Assumptions C86_plain.

(** Other messages are refused with the right error, reach no handler, and are left as
    they are. *)
Theorem C86_refused : forall value decrypt encrypt types m,
  (forall x, In x (buf m) -> (x < 256)%N) -> len m <= length (buf m) ->
  (len m < 5 -> process value decrypt encrypt types m = (TooShort, m, None)) /\
  (5 <= len m -> firstn 3 (buf m) <> [126; 20; 20]%N -> process value decrypt encrypt types m = (UnsupportedMsg, m, None)) /\
  (5 <= len m -> firstn 3 (buf m) = [126; 20; 20]%N ->
   (forall r cmd, (r < 2)%N -> ~ plain_request (buf m) r cmd /\ ~ sealed_request (buf m) r cmd) ->
   process value decrypt encrypt types m = (RsvdNotZero, m, None)).
Proof.
  intros value decrypt encrypt types m BY LE. destruct (parse_plain_ok m BY LE) as [PP PE]. split; [|split].
  - intros L. unfold process, parse, parse_plain. apply Nat.ltb_lt in L. rewrite L. reflexivity.
  - intros L NE. destruct (five (buf m) ltac:(lia)) as (a0 & a1 & a2 & a3 & a4 & t & E).
    assert (Q : parse_plain m = inl UnsupportedMsg).
    { unfold parse_plain, b_at. rewrite E in *. cbn [nth firstn] in *. destruct (len m <? 5) eqn:X; [apply Nat.ltb_lt in X; lia|].
      destruct (a0 mod 128 =? 126)%N eqn:A0; [|reflexivity]. destruct (N.testbit a0 7) eqn:A7; [reflexivity|].
      destruct (a1 =? 20)%N eqn:A1; [|reflexivity]. destruct (a2 =? 20)%N eqn:A2; [|reflexivity]. exfalso. apply NE.
      apply N.eqb_eq in A1, A2. rewrite (byte0 a0 ltac:(apply BY; cbn; tauto) A0 A7). congruence. }
    unfold process, parse. now rewrite Q.
  - intros L H3 NR.
    assert (Q : parse_plain m = inl RsvdNotZero).
    { destruct (parse_plain m) as [c|[m' t]] eqn:Q.
      - destruct (five (buf m) ltac:(lia)) as (a0 & a1 & a2 & a3 & a4 & t & E). unfold parse_plain, b_at in Q. rewrite E in *.
        cbn [firstn] in H3. injection H3 as -> -> ->. cbn [nth] in Q.
        destruct (len m <? 5) eqn:X; [apply Nat.ltb_lt in X; lia|].
        change (negb (126 mod 128 =? 126)%N || N.testbit 126 7 || negb ((20 =? 20)%N && (20 =? 20)%N)) with false in Q. cbv iota in Q.
        destruct (negb (a3 mod 32 =? 0)%N || N.testbit a3 6); [congruence|].
        destruct (N.testbit a3 5); [|discriminate]. inversion Q; subst c. exfalso.
        destruct (PE eq_refl) as [_ S]. assert (R : (rq m < 2)%N) by (apply N.mod_lt; discriminate).
        destruct (NR (rq m) (b_at m 4) R) as [_ NS]. exact (NS S).
      - exfalso. destruct (PP _ _ eq_refl) as (_ & S & _). assert (R : (rq m < 2)%N) by (apply N.mod_lt; discriminate).
        destruct (NR (rq m) t R) as [NS _]. exact (NS S). }
    unfold process, parse. now rewrite Q.
Qed.
Print Assumptions C86_refused.

(** A type is supported exactly if some handler is registered for it. *)
Theorem C86_supported : forall types type, supported types type = true <-> exists h, In (type, h) types.
Proof.
  unfold supported. assert (G : forall types k type, match find types k type with Some _ => true | None => false end = true <-> exists h, In (type, h) types).
  { induction types as [|[t x] types IH]; intros k type; cbn [find In].
    - split; [discriminate | intros (h & [])].
    - destruct (N.eqb_spec t type) as [->|NE].
      + split; [intros _; exists x; now left | reflexivity].
      + rewrite IH. split; intros (h & H); exists h; [now right|]. destruct H as [H|H]; [congruence|exact H]. }
  intros. apply G.
Qed.
Print Assumptions C86_supported.

(** Non-vacuity: a session that adds 100 to what follows the header; an echo and a
    handler that fails. *)
Definition echo : handler := fun m => (Ok, m).
Definition failing : handler := fun m => (Error 9%N, m).
Definition ts : list (N * handler) := [(1%N, echo); (2%N, failing); (1%N, failing)].
Definition dec (m : msg) : N + (list N * nat) :=
  if (nth 5 (buf m) 0%N <? 100)%N then inl 77%N else inr (firstn 5 (buf m) ++ map (fun x => (x - 100)%N) (skipn 5 (buf m)), len m - 1).
Definition encr (m : msg) : N + (list N * nat) := inr (firstn 5 (buf m) ++ map (fun x => (x + 100)%N) (skipn 5 (buf m)), len m + 1).
Definition val (c : code) : N := match c with Error e => e | UnknownType => 513%N | _ => 0%N end.
Example C86_example_keeps : keeps_protection ts.
Proof. intros t h m [H|[H|[H|[]]]]; injection H as <- <-; split; reflexivity. Qed.
Example C86_example :
  let sealed cmd := Msg ([126; 20; 20; 160; cmd; 101; 102]%N ++ repeat 100%N 5) 8 false 100%N in
  process val dec encr ts (sealed 1%N) =
    (Ok, Msg ([126; 20; 20; 160; 1; 101; 102]%N ++ repeat 100%N 5) 8 true 100%N,
     Some (0, Msg ([126; 20; 20; 160; 1; 1; 2]%N ++ repeat 0%N 5) 7 true 72%N)) /\
  process val dec encr ts (sealed 2%N) =
    (Ok, Msg [126; 20; 20; 160; 127; 104; 109; 100; 100; 100; 100; 100]%N 11 true 100%N,
     Some (1, Msg ([126; 20; 20; 160; 2; 1; 2]%N ++ repeat 0%N 5) 7 true 72%N)) /\
  process val dec encr ts (Msg ([126; 20; 20; 0; 3; 1]%N ++ repeat 0%N 5) 6 true 100%N) =
    (Ok, Msg [126; 20; 20; 0; 127; 4; 1; 2; 0; 0; 0]%N 10 false 100%N, None) /\
  fst (fst (process val dec encr ts (Msg ([126; 20; 20; 32; 1; 1; 2]%N ++ repeat 0%N 5) 7 false 100%N))) = Error 77%N /\
  fst (fst (process val dec encr ts (Msg ([126; 20; 20; 1; 1; 1; 2]%N ++ repeat 0%N 5) 7 false 100%N))) = RsvdNotZero.
Proof. vm_compute. repeat split. Qed.
