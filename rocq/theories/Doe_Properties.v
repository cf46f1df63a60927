(** * C78: the DOE mailbox hands requests to the responder unchanged and frames its replies. *)
From Coq Require Import List NArith ZArith Lia Bool Arith ZifyBool ZifyNat ZifyN Zify.
From Verif Require Import Base Doe_Spec Doe_Model.
From Verif Require SpdmSession_Model SpdmSession_Spec SpdmSession_Wire_Proofs SpdmSession_Properties.
Import ListNotations.
Local Open Scope nat_scope.

(** Bytes. *)
Definition octets (l : list N) : Prop := Forall (fun x => (x < 256)%N) l.

Lemma value4 : forall a b c d, (a < 256)%N -> (b < 256)%N -> (c < 256)%N -> (d < 256)%N ->
  bytes4 (le_value [a; b; c; d]) = [a; b; c; d].
Proof.
  intros. unfold bytes4. cbn [le_value].
  f_equal; [|f_equal; [|f_equal; [|f_equal]]]; zify; Z.to_euclidean_division_equations; lia.
Qed.

Lemma bytes4_value : forall x, (x < 2 ^ 32)%N -> le_value (bytes4 x) = x.
Proof.
  intros. unfold bytes4. cbn [le_value]. change (2 ^ 32)%N with 4294967296%N in *.
  zify; Z.to_euclidean_division_equations; lia.
Qed.

Lemma length_of_object : forall v t r w body rest,
  length_of (object v t r w body ++ rest) = (w mod 2 ^ 18)%N.
Proof.
  intros. unfold length_of, object. cbn [app].
  change (window 4 4 _) with (bytes4 (w mod 2 ^ 18)). apply bytes4_value.
  pose proof (N.mod_upper_bound w (2 ^ 18)). change (2 ^ 18)%N with 262144%N in *. change (2 ^ 32)%N with 4294967296%N. lia.
Qed.

Lemma vendor_of_object : forall t r w body rest, vendor_of (object 1 t r w body ++ rest) = 1%N.
Proof. reflexivity. Qed.
Lemma type_of_object : forall v t r w body rest, type_of (object v t r w body ++ rest) = t.
Proof. reflexivity. Qed.
Lemma length_object : forall v t r w body, length (object v t r w body) = 8 + length body.
Proof. reflexivity. Qed.

Lemma decode_object : forall t r w body rest, complete w body -> (t = 2 -> 4 <= w)%N ->
  decode (object 1 t r w body ++ rest) =
    inr ((t =? 2)%N, Msg (object 1 t r w body ++ rest) 8 (length body) (8 + length body + length rest)).
Proof.
  intros t r w body rest ((W1 & W2) & L) T. unfold decode.
  rewrite length_of_object, vendor_of_object, type_of_object, app_length, length_object.
  change (2 ^ 18)%N with 262144%N in *. unfold MIN_DWORDS, SPEC_MAX_DWORDS, SPEC_MAX_BYTES, HEADER, TYPE_SECURED, VENDOR_PCISIG.
  assert (Q : ((if w mod 262144 =? 0 then 1048576 else w mod 262144 * 4) = 4 * w)%N).
  { destruct (N.eq_dec w 262144) as [->|]; [reflexivity|]. rewrite N.mod_small by lia.
    destruct (w =? 0)%N eqn:Z; [lia|]. lia. }
  rewrite Q.
  assert (Q1 : negb (w mod 262144 =? 0)%N && ((w mod 262144 <? 3)%N || (262144 <=? w mod 262144)%N) = false).
  { destruct (N.eq_dec w 262144) as [->|]; [reflexivity|]. rewrite N.mod_small by lia. lia. }
  rewrite Q1.
  destruct (N.of_nat (8 + length body + length rest) <? 4 * w)%N eqn:Z1; [lia|].
  cbn [N.eqb negb]. change (negb (1 =? 1)%N) with false. cbv iota.
  destruct ((t =? 2)%N && (4 * w <=? N.of_nat 8 + 4)%N) eqn:Z2; [apply andb_prop in Z2; lia|].
  replace (N.to_nat (4 * w) - 8) with (length body) by lia. reflexivity.
Qed.

(** What a mailbox accepts: a complete object of the PCI-SIG that is a
    discovery or an SPDM message, and at its start. *)
Definition acceptable (b : list N) : Prop :=
  exists t r w body rest, b = object 1 t r w body ++ rest /\ complete w body /\ (t <= 2)%N /\ (t = 2 -> 4 <= w)%N.

Definition code_of {A} (x : code + A) : code := match x with inl c => c | inr _ => Ok end.

Lemma decode_sound : forall b e m, octets b -> 12 <= length b -> decode b = inr (e, m) ->
  exists r w body rest, b = object 1 (type_of b) r w body ++ rest /\ complete w body /\ (type_of b = 2 -> 4 <= w)%N.
Proof.
  intros b e m O L D.
  destruct b as [|b0 [|b1 [|b2 [|b3 [|b4 [|b5 [|b6 [|b7 b]]]]]]]]; cbn [length] in L; try lia.
  assert (V : length_of (b0 :: b1 :: b2 :: b3 :: b4 :: b5 :: b6 :: b7 :: b) = le_value [b4; b5; b6; b7]) by reflexivity.
  assert (V' : vendor_of (b0 :: b1 :: b2 :: b3 :: b4 :: b5 :: b6 :: b7 :: b) = (b0 + 256 * (b1 + 256 * 0))%N) by reflexivity.
  unfold decode in D. rewrite V, V' in D. change (type_of _) with b2 in *.
  unfold MIN_DWORDS, SPEC_MAX_DWORDS, SPEC_MAX_BYTES, HEADER, TYPE_SECURED, VENDOR_PCISIG in D.
  repeat match goal with H : octets (_ :: _) |- _ => inversion H as [|? ? ? ?]; clear H; subst end.
  repeat match goal with H : Forall _ (_ :: _) |- _ => inversion H as [|? ? ? ?]; clear H; subst end.
  set (len := le_value [b4; b5; b6; b7]) in *.
  destruct (negb (len =? 0)%N && ((len <? 3)%N || (262144 <=? len)%N)) eqn:Z1; [discriminate|].
  set (w := (if (len =? 0)%N then 262144%N else len)).
  assert (Q : (if (len =? 0)%N then 1048576%N else (len * 4)%N) = (4 * w)%N) by (unfold w; destruct (len =? 0)%N; lia).
  rewrite Q in D.
  destruct (N.of_nat (length (b0 :: b1 :: b2 :: b3 :: b4 :: b5 :: b6 :: b7 :: b)) <? 4 * w)%N eqn:Z2; [discriminate|].
  destruct (negb (b0 + 256 * (b1 + 256 * 0) =? 1)%N) eqn:Z3; [discriminate|].
  destruct ((b2 =? 2)%N && (4 * w <=? N.of_nat 8 + 4)%N) eqn:Z4; [discriminate|].
  assert (W : (3 <= w <= 262144)%N) by (unfold w; destruct (len =? 0)%N eqn:Z; lia).
  assert (M : (w mod 2 ^ 18 = len)%N).
  { change (2 ^ 18)%N with 262144%N. unfold w. destruct (len =? 0)%N eqn:Z; [rewrite N.mod_same by lia; lia|]. apply N.mod_small. lia. }
  cbn [length] in Z2.
  exists b3, w, (firstn (N.to_nat (4 * w) - 8) b), (skipn (N.to_nat (4 * w) - 8) b).
  split; [|split].
  - unfold object. rewrite M. unfold len. rewrite value4 by assumption. cbn [app]. rewrite firstn_skipn.
    assert (b0 = 1%N) by lia. assert (b1 = 0%N) by lia. subst b0 b1. reflexivity.
  - split; [change (2 ^ 18)%N with 262144%N; exact W|]. rewrite firstn_length. lia.
  - intros ->. change (2 =? 2)%N with true in Z4. cbn [andb] in Z4. lia.
Qed.

(** A request that is complete reaches the responder as it was sent: the
    payload, nothing of the header or of what lies behind it, marked as
    encrypted if and only if it came as a secured message.  If the responder
    fails its status is returned; nothing is sent then. *)
Theorem C78_delivered : forall t r w body rest, complete w body -> t = 1%N \/ (t = 2 /\ 4 <= w)%N ->
  exists m,
    window (off m) (plen m) (buf m) = body /\ buf m = object 1 t r w body ++ rest /\ maxr m = length (buf m) /\
    forall protocols respond e sending m',
      respond (t =? 2)%N m = (e, m') -> e <> Ok ->
      receive_and_process protocols respond (inr (object 1 t r w body ++ rest)) sending = (e, None).
Proof.
  intros t r w body rest C T. exists (Msg (object 1 t r w body ++ rest) 8 (length body) (8 + length body + length rest)).
  cbn [SpdmSession_Model.buf SpdmSession_Model.off SpdmSession_Model.plen SpdmSession_Model.maxr].
  split; [|split; [reflexivity|split; [now rewrite app_length, length_object|]]].
  - apply SpdmSession_Wire_Proofs.window_at with (a := [1 mod 256; 1 / 256; t; r]%N ++ bytes4 (w mod 2 ^ 18)); reflexivity.
  - intros p f e sending m' R E. unfold receive_and_process, process.
    rewrite decode_object by (assumption || lia). rewrite type_of_object.
    assert (Q : (t =? TYPE_SPDM)%N || (t =? TYPE_SECURED)%N = true) by (unfold TYPE_SPDM, TYPE_SECURED; lia).
    rewrite Q, R. destruct e; try reflexivity. now elim E.
Qed.
Print Assumptions C78_delivered.

Definition dwords (n : nat) : nat := (n + 3) / 4.

Lemma dwords_spec : forall n, n <= 4 * dwords n < n + 4.
Proof. intros. unfold dwords. zify; Z.to_euclidean_division_equations; lia. Qed.

(** The frame of a reply: if the responder leaves a reply behind the header,
    what is sent starts with an object of the same type whose payload is the
    reply, filled up to whole dwords, and whose length is the one in its
    header; a reply that does not fit the buffer is an error. *)
Theorem C78_framed : forall protocols respond t r w body rest b' reply sending,
  let b := object 1 t r w body ++ rest in
  complete w body -> t = 1%N \/ (t = 2 /\ 4 <= w)%N -> (N.of_nat (length b) <= 2 ^ 20)%N ->
  respond (t =? 2)%N (Msg b 8 (length body) (length b)) = (Ok, Msg b' 8 (length reply) (length b)) ->
  length b' = length b -> nth 2 b' 0%N = t -> window 8 (length reply) b' = reply ->
  (8 + 4 * dwords (length reply) <= length b ->
     exists pad rest', length pad < 4 /\ length (reply ++ pad) = 4 * dwords (length reply) /\
     pad ++ rest' = skipn (8 + length reply) b' /\
     receive_and_process protocols respond (inr b) sending =
       (sending, Some (object 1 t 0 (N.of_nat (2 + dwords (length reply))) (reply ++ pad) ++ rest'))) /\
  (length b < 8 + 4 * dwords (length reply) ->
     receive_and_process protocols respond (inr b) sending = (InvalidSize, None)).
Proof.
  intros p f t r w body rest b' reply sending b C T M R L B2 W.
  pose proof (dwords_spec (length reply)) as DW.
  assert (Lb : length b = 8 + length body + length rest) by (unfold b; now rewrite app_length, length_object).
  assert (P : process p f b = encode b' (length reply)).
  { unfold process, b. rewrite decode_object by (assumption || lia). rewrite type_of_object.
    assert (Q : (t =? TYPE_SPDM)%N || (t =? TYPE_SECURED)%N = true) by (unfold TYPE_SPDM, TYPE_SECURED; lia).
    rewrite Q, <- Lb. change (object 1 t r w body ++ rest) with b. rewrite R. reflexivity. }
  unfold receive_and_process. rewrite P. unfold encode. fold (dwords (length reply)). rewrite L.
  set (k := dwords (length reply)) in *. unfold HEADER.
  split; intros F.
  - destruct (length b <? k * 4 + 8) eqn:Z; [lia|]. cbn [is_ok].
    exists (window (8 + length reply) (4 * k - length reply) b'), (skipn (8 + 4 * k) b').
    assert (LP : length (window (8 + length reply) (4 * k - length reply) b') = 4 * k - length reply) by (rewrite length_window; lia).
    split; [lia|]. split; [rewrite app_length; lia|].
    assert (SK : window (8 + length reply) (4 * k - length reply) b' ++ skipn (8 + 4 * k) b' = skipn (8 + length reply) b').
    { replace (8 + 4 * k) with ((8 + length reply) + (4 * k - length reply)) by lia. unfold window.
      rewrite <- (skipn_skipn b' (4 * k - length reply) (8 + length reply)). apply firstn_skipn. }
    split; [exact SK|].
    f_equal. f_equal. rewrite B2.
    assert (E : (if (N.of_nat (k * 4 + 8) =? SPEC_MAX_BYTES) then 0 else N.of_nat (k * 4 + 8) / 4)%N = (N.of_nat (2 + k) mod 2 ^ 18)%N).
    { unfold SPEC_MAX_BYTES. change (2 ^ 18)%N with 262144%N. change (2 ^ 20)%N with 1048576%N in M.
      assert (J : (N.of_nat (k * 4 + 8) / 4 = N.of_nat (2 + k))%N) by (zify; Z.to_euclidean_division_equations; lia).
      destruct (N.of_nat (k * 4 + 8) =? 1048576)%N eqn:Z0.
      - assert (N.of_nat (2 + k) = 262144)%N as -> by lia. reflexivity.
      - rewrite J, N.mod_small by lia. reflexivity. }
    rewrite E. unfold splice, object. rewrite firstn_O. cbn [app].
    change (le32 (N.of_nat (2 + k) mod 2 ^ 18)) with (bytes4 (N.of_nat (2 + k) mod 2 ^ 18)).
    unfold le16, VENDOR_PCISIG. cbn [app]. rewrite <- !app_assoc.
    change (1 mod 256)%N with 1%N. change (1 / 256 mod 256)%N with 0%N. change (1 / 256)%N with 0%N.
    f_equal. f_equal. f_equal. f_equal. f_equal.
    change (0 + length _) with 8.
    rewrite <- (firstn_skipn (length reply) (skipn 8 b')) at 1.
    change (firstn (length reply) (skipn 8 b')) with (window 8 (length reply) b'). rewrite W. f_equal.
    rewrite skipn_skipn. symmetry. exact SK.
  - destruct (length b <? k * 4 + 8) eqn:Z; [reflexivity|lia].
Qed.
Print Assumptions C78_framed.

(** Whatever else is in the mailbox is refused, whatever the responder would
    do: nothing is sent and the message is left as it was. *)
Theorem C78_refused : forall b, octets b -> 12 <= length b -> ~ acceptable b ->
  exists e, e <> Ok /\ forall protocols respond sending,
    process protocols respond b = (e, b) /\ receive_and_process protocols respond (inr b) sending = (e, None).
Proof.
  intros b O L NA. unfold receive_and_process, process.
  destruct (decode b) as [e|(enc & m)] eqn:D.
  - exists e. assert (E : e <> Ok).
    { intros ->. unfold decode in D.
      repeat match type of D with (if ?c then _ else _) = _ => destruct c; [discriminate|] end. discriminate. }
    split; [exact E|]. intros. split; [reflexivity|]. destruct e; try reflexivity. now elim E.
  - destruct (decode_sound b enc m O L D) as (r & w & body & rest & Q & C & T).
    assert (G : (type_of b =? TYPE_SPDM)%N || (type_of b =? TYPE_SECURED)%N = false /\ (type_of b =? TYPE_DISCOVERY)%N = false).
    { unfold TYPE_SPDM, TYPE_SECURED, TYPE_DISCOVERY.
      assert (~ (type_of b <= 2)%N) by (intros K; apply NA; exists (type_of b), r, w, body, rest; auto). lia. }
    destruct G as (-> & ->). exists UnsupportedType. split; [discriminate|]. intros. cbn [is_ok].
    assert (BM : buf m = b).
    { unfold decode in D.
      repeat match type of D with (if ?c then _ else _) = _ => destruct c; [discriminate|] end.
      assert (m = Msg b HEADER (N.to_nat (if (length_of b =? 0)%N then SPEC_MAX_BYTES else (length_of b * 4)%N) - HEADER) (length b)) as -> by congruence.
      reflexivity. }
    rewrite BM. split; reflexivity.
Qed.
Print Assumptions C78_refused.

(** Discovery, as a host asks for entry [index] with any bytes behind the
    request: the entry and the next index, if the answer is an object of three
    dwords of the same type. *)
Definition ask (protocols : list (N * N)) (respond : bool -> msg -> code * msg) (rest : list N) (index : N) : option (N * N * N) :=
  match receive_and_process protocols respond (inr (object 1 0 0 3 [index; 0; 0; 0]%N ++ rest)) Ok with
  | (Ok, Some out) =>
      match skipn 8 out with
      | v0 :: v1 :: t :: next :: rest' =>
          if list_eq_dec N.eq_dec out (object 1 0 0 3 [v0; v1; t; next] ++ rest) then Some ((v0 + 256 * v1)%N, t, next) else None
      | _ => None
      end
  | _ => None
  end.

Lemma discovery_object : forall protocols respond rest i, (i < 256)%N ->
  process protocols respond (object 1 0 0 3 [i; 0; 0; 0]%N ++ rest) =
    match nth_error protocols (N.to_nat i) with
    | None => (InvalidIndex, object 1 0 0 3 [i; 0; 0; 0]%N ++ rest)
    | Some (v, t) =>
        (Ok, object 1 0 0 3 [(v mod 65536) mod 256; (v mod 65536) / 256 mod 256; t mod 256;
               if (N.to_nat i =? length protocols - 1)%nat then 0 else ((N.of_nat (N.to_nat i) + 1) mod 256)]%N ++ rest)
    end.
Proof.
  intros p f rest i I. unfold process. rewrite decode_object by (unfold complete; cbn [length]; change (2 ^ 18)%N with 262144%N; lia).
  rewrite type_of_object. cbn [N.eqb TYPE_SPDM TYPE_SECURED TYPE_DISCOVERY orb]. unfold discovery.
  cbn [SpdmSession_Model.buf SpdmSession_Model.off SpdmSession_Model.plen SpdmSession_Model.maxr length].
  change (nth 8 (object 1 0 0 3 [i; 0; 0; 0]%N ++ rest) 0%N) with i.
  destruct (nth_error p (N.to_nat i)) as [(v, t)|]; [|reflexivity].
  cbn [is_ok SpdmSession_Model.buf SpdmSession_Model.plen]. unfold encode.
  change ((4 + 3) / 4 * 4 + HEADER) with 12.
  assert (LS : forall x, length (splice (object 1 0 0 3 [i; 0; 0; 0]%N ++ rest) 8 (le16 (v mod 65536) ++ [t mod 256; x]%N)) = 12 + length rest).
  { intros. rewrite length_splice; rewrite app_length; [reflexivity|]. cbn [length le16 app object bytes4]. lia. }
  rewrite LS. destruct (12 + length rest <? 12) eqn:Z; [lia|]. reflexivity.
Qed.

Lemma ask_spec : forall protocols respond rest i, (i < 256)%N -> length protocols <= 255 ->
  Forall (fun e => (fst e < 65536)%N /\ (snd e < 256)%N) protocols ->
  ask protocols respond rest i =
    match nth_error protocols (N.to_nat i) with
    | None => None
    | Some (v, t) => Some (v, t, if N.to_nat i =? length protocols - 1 then 0%N else (i + 1)%N)
    end.
Proof.
  intros p f rest i I L F. unfold ask, receive_and_process. rewrite discovery_object by exact I.
  destruct (nth_error p (N.to_nat i)) as [(v, t)|] eqn:E; [|reflexivity].
  assert (B : (v < 65536)%N /\ (t < 256)%N) by (apply nth_error_In in E; rewrite Forall_forall in F; exact (F _ E)).
  assert (J : N.to_nat i < length p) by (apply nth_error_Some; congruence).
  cbn [is_ok]. 
  set (x := (if N.to_nat i =? length p - 1 then 0%N else ((N.of_nat (N.to_nat i) + 1) mod 256)%N)).
  change (skipn 8 _) with ([(v mod 65536) mod 256; (v mod 65536) / 256 mod 256; t mod 256; x]%N ++ rest).
  cbn [app]. destruct (list_eq_dec N.eq_dec _ _) as [|K]; [|now elim K].
  f_equal. f_equal; [f_equal|].
  - Zify.zify; Z.to_euclidean_division_equations; lia.
  - apply N.mod_small. lia.
  - unfold x. destruct (N.to_nat i =? length p - 1) eqn:Z; [reflexivity|]. rewrite N2Nat.id. apply N.mod_small. lia.
Qed.

(** A host that walks through the entries from index 0 finds every entry of
    the device, in order and once, and then index 0; indices beyond them are
    refused. *)
Theorem C78_discovery : forall protocols respond rest, protocols <> [] -> length protocols <= 255 ->
  Forall (fun e => (fst e < 65536)%N /\ (snd e < 256)%N) protocols ->
  walk (length protocols) (ask protocols respond rest) 0 = Some protocols /\
  forall i sending, (N.of_nat (length protocols) <= i < 256)%N ->
    receive_and_process protocols respond (inr (object 1 0 0 3 [i; 0; 0; 0]%N ++ rest)) sending = (InvalidIndex, None).
Proof.
  intros p f rest NE L F. split.
  - assert (G : forall k i, i + k = length p -> 0 < k -> walk k (ask p f rest) (N.of_nat i) = Some (skipn i p)).
    { induction k as [|k IH]; intros i SK K; [lia|]. cbn [walk]. rewrite ask_spec by (assumption || lia). rewrite Nat2N.id.
      destruct (nth_error p i) as [(v, t)|] eqn:E; [|apply nth_error_None in E; lia].
      assert (Q : skipn i p = (v, t) :: skipn (S i) p).
      { clear - E. revert p E. induction i as [|i IH]; intros [|x p] E; try discriminate; [cbn in E; cbn; congruence|]. exact (IH p E). }
      destruct (i =? length p - 1) eqn:Z.
      - change (0 =? 0)%N with true. cbv iota. rewrite Q, (skipn_all2 p (n := S i)) by lia. reflexivity.
      - destruct (N.of_nat i + 1 =? 0)%N eqn:Z'; [lia|]. replace (N.of_nat i + 1)%N with (N.of_nat (S i)) by lia.
        rewrite IH by lia. now rewrite Q. }
    apply (G (length p) 0); [lia|]. destruct p; [now elim NE|cbn; lia].
  - intros i sending I. unfold receive_and_process. rewrite discovery_object by lia.
    destruct (nth_error p (N.to_nat i)) eqn:E; [|reflexivity]. assert (N.to_nat i < length p) by (apply nth_error_Some; congruence). lia.
Qed.
Print Assumptions C78_discovery.

(** A mailbox is set up only with discovery as its first entry. *)
Theorem C78_init : forall protocols, init protocols = Ok <-> exists l, protocols = (1, 0)%N :: l.
Proof.
  intros [|(v, t) l]; cbn [init]; split.
  - discriminate.
  - intros (? & ?). discriminate.
  - unfold VENDOR_PCISIG, TYPE_DISCOVERY. destruct ((v =? 1)%N && (t =? 0)%N) eqn:E; [|discriminate]. intros _. exists l.
    apply andb_prop in E. assert (v = 1%N) as -> by lia. assert (t = 0%N) as -> by lia. reflexivity.
  - intros (? & E). assert (v = 1%N) as -> by congruence. assert (t = 0%N) as -> by congruence. reflexivity.
Qed.
Print Assumptions C78_init.

(** The bytes that fill up a reply are not cleared: they are what was in the
    buffer, here two bytes of the request (doe_interface.c:71). *)
Theorem C78_padding_refuted : exists respond b out,
  acceptable b /\ receive_and_process [(1, 0)%N] respond (inr b) Ok = (Ok, Some out) /\
  out = object 1 1 0 4 ([16; 4; 0; 0; 1; 0] ++ [77; 78])%N.
Proof.
  exists (fun _ m => (Ok, Msg (splice (buf m) 8 [16; 4; 0; 0; 1; 0]%N) 8 6 (maxr m))), (object 1 1 0 4 [16; 132; 0; 0; 75; 76; 77; 78]%N). eexists.
  split; [|split; [vm_compute; reflexivity|reflexivity]].
  exists 1%N, 0%N, 4%N, [16; 132; 0; 0; 75; 76; 77; 78]%N, []. unfold complete. rewrite app_nil_r. cbn [length]. change (2 ^ 18)%N with 262144%N. repeat split; lia.
Qed.
Print Assumptions C78_padding_refuted.

(** The SPDM responder of SpdmSession_Model behind a mailbox. *)
Definition spdm (s : SpdmSession_Model.state) (h : SpdmSession_Model.handler) (e : bool) (m : msg) : code * msg :=
  match snd (SpdmSession_Model.process SpdmSession_Properties.toy_seal SpdmSession_Properties.toy_tag SpdmSession_Properties.toy_open s
          (SpdmSession_Model.Request e m h SpdmSession_Spec.all_works)) with
  | SpdmSession_Model.Sent m => (Ok, m)
  | _ => (External 0, m)
  end.

(** If a reply cannot be sealed, the responder leaves its error reply eight
    bytes further back, and what is sent over DOE is not the error reply but
    bytes of the request (cmd_interface_spdm_responder.c:161-171,
    doe_interface.c:271).  The session is an established one. *)
Theorem C78_error_reply_refuted : exists h b out m,
  acceptable b /\
  spdm SpdmSession_Properties.established h true (Msg b 8 (length b - 8) (length b)) = (Ok, m) /\
  window (off m) (plen m) (buf m) = SpdmSession_Model.error_reply 0 6 /\
  receive_and_process [(1, 0)%N] (spdm SpdmSession_Properties.established h) (inr b) Ok = (Ok, Some out) /\
  window 4 4 out = bytes4 3 /\ window 8 4 out = window 8 4 b /\ window 8 4 out <> SpdmSession_Model.error_reply 0 6.
Proof.
  set (body := SpdmSession_Spec.secured SpdmSession_Properties.toy_seal SpdmSession_Properties.toy_tag 65543 [3%N] SpdmSession_Properties.sl0 0 [17; 254; 9; 9]%N ++ repeat 0%N 28).
  exists (SpdmSession_Properties.answers SpdmSession_Properties.k2 (repeat 6%N 40)), (object 1 2 0 16 body). do 2 eexists.
  split.
  { exists 2%N, 0%N, 16%N, body, []. rewrite app_nil_r. unfold complete. change (2 ^ 18)%N with 262144%N. repeat split; try lia; try (vm_compute; reflexivity). }
  split; [vm_compute; reflexivity|]. split; [vm_compute; reflexivity|]. split; [vm_compute; reflexivity|].
  split; [vm_compute; reflexivity|]. split; [vm_compute; reflexivity|]. vm_compute. discriminate.
Qed.
Print Assumptions C78_error_reply_refuted.

(** A request and its reply; a request with a wrong length; a walk through
    three entries. *)
Definition echo (e : bool) (m : msg) : code * msg :=
  (Ok, Msg (splice (buf m) 8 (if e then [9; 9; 9; 9; 9] else [8; 8])%N) 8 (if e then 5 else 2) (maxr m)).
Example C78_example :
  receive_and_process [(1, 0)%N] echo (inr (object 1 2 0 4 (repeat 7 8) ++ [5; 6])%N) Ok =
    (Ok, Some (object 1 2 0 4 [9; 9; 9; 9; 9; 7; 7; 7] ++ [5; 6])%N) /\
  receive_and_process [(1, 0)%N] echo (inr (object 1 2 0 3 (repeat 7 8))%N) Ok = (InvalidSize, None) /\
  receive_and_process [(1, 0)%N] echo (inr (object 1 1 0 5 (repeat 7 8))%N) Ok = (InvalidSize, None) /\
  walk 3 (ask [(1, 0); (1, 1); (0x1414, 2)]%N echo [3]%N) 0 = Some [(1, 0); (1, 1); (0x1414, 2)]%N.
Proof. vm_compute. repeat split. Qed.
