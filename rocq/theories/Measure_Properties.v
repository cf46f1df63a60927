(** C77: SPDM measurements. *)
From Coq Require Import List NArith Lia Bool Arith ZifyBool ZifyNat ZifyN.
From Verif Require Import Base SpdmSession_Wire_Proofs Measure_Model Measure_Spec Measure_Proofs.
Import ListNotations.
Local Open Scope nat_scope.

(** What is assumed of the store: value types of seven bits, values that fit
    their length field, and no more measurements than there are indices. *)
Definition sound (s : store) : Prop :=
  length (concat s) <= 254 /\
  Forall (fun m => (m_type m < 128)%N /\
    forall l, (m_data m = Bytes l \/ m_digest m = Bytes l) -> (N.of_nat (length l) < 65533)%N) (concat s).

Lemma reports_fits : forall raw n ms l, Forall (fun m => (m_type m < 128)%N /\
    forall l, (m_data m = Bytes l \/ m_digest m = Bytes l) -> (N.of_nat (length l) < 65533)%N) ms ->
  reports raw n ms l -> Forall fits l.
Proof.
  intros raw n ms l F R. induction R as [|n m ms r v l E R IH]; [constructor|].
  inversion F as [|? ? (T & B) F']; subst. constructor; [|exact (IH F')]. split; [exact T|]. cbn [e_value].
  apply B. unfold reported in E.
  destruct raw, (m_data m) as [[|x w]| |], (m_digest m); try discriminate; injection E as <- <-; auto.
Qed.

(** The record of all measurements: it is written exactly if every measurement
    can be reported and the record fits.  Whoever reads it finds every
    measurement of the device, numbered from 1 in order, with its type, raw if
    that was asked for and there is raw data, and as a digest otherwise.  The
    rest of the buffer is as it was. *)
Theorem C77_record : forall s raw buf n buf', sound s ->
  (get_all s raw buf = inr (n, buf') <->
   exists record l, reads record l /\ reports raw 1 (concat s) l /\ n = length record /\ n <= length buf /\
     buf' = record ++ skipn n buf).
Proof.
  intros s raw buf n buf' (C & F). unfold get_all. rewrite all_blocks_concat.
  pose proof (pcr_blocks_some (concat s) raw 1 0 buf n buf' ltac:(lia) ltac:(lia)) as P. cbn [firstn app Nat.add] in P.
  split.
  - intros E. destruct (pcr_blocks (concat s) raw 1 0 buf) as [e|[[i t] b]]; [discriminate|].
    injection E as -> ->. destruct (proj1 P (ex_intro _ i eq_refl)) as (l & R & En & L & Eb).
    exists (encodes l), l. split; [apply reads_encodes; split; [reflexivity|exact (reports_fits _ _ _ _ F R)]|].
    split; [exact R|]. split; [exact En|]. split; [exact L|exact Eb].
  - intros (record & l & Rd & R & En & L & Eb). apply reads_encodes in Rd. destruct Rd as (-> & _).
    destruct (proj2 P (ex_intro _ l (conj R (conj En (conj L Eb))))) as (i & X). rewrite X. reflexivity.
Qed.
Print Assumptions C77_record.

Lemma reads_inv : forall b l, reads b l ->
  (b = [] /\ l = []) \/
  exists e lo hi lo' hi' rest l',
    (lo + 256 * hi = 3 + N.of_nat (length (e_value e)))%N /\
    (lo' + 256 * hi' = N.of_nat (length (e_value e)))%N /\
    (lo < 256 /\ hi < 256 /\ lo' < 256 /\ hi' < 256 /\ e_type e < 128)%N /\ reads rest l' /\
    b = e_index e :: 1%N :: lo :: hi :: (if e_raw e then 128 + e_type e else e_type e)%N :: lo' :: hi' :: e_value e ++ rest /\
    l = e :: l'.
Proof.
  intros b l R. destruct R as [|e lo hi lo' hi' rest l E1 E2 B R]; [left; split; reflexivity|right].
  exists e, lo, hi, lo', hi', rest, l. repeat split; (exact R || reflexivity || tauto || assumption).
Qed.

(** A record has one reading. *)
Theorem C77_unambiguous : forall b l l', reads b l -> reads b l' -> l = l'.
Proof.
  intros b l l' R. revert l'. induction R as [|e lo hi lo' hi' rest l E1 E2 B R IH]; intros l' R'.
  - apply reads_inv in R'. destruct R' as [(_ & ->)|(e' & a & b & c & d & rest' & l'' & _ & _ & _ & _ & X & _)];
      [reflexivity|discriminate X].
  - apply reads_inv in R'.
    destruct R' as [(X & _)|(e' & a & b & c & d & rest' & l'' & F1 & F2 & B' & R'' & X & ->)]; [discriminate X|].
    cbn [app] in X.
    assert (X4 : (if e_raw e then 128 + e_type e else e_type e)%N = (if e_raw e' then 128 + e_type e' else e_type e')%N)
      by congruence.
    assert (X7 : e_value e ++ rest = e_value e' ++ rest') by congruence.
    assert (X1 : e_index e = e_index e') by congruence. assert (Xc : lo' = c) by congruence.
    assert (Xd : hi' = d) by congruence. clear X. subst c d.
    assert (L : length (e_value e') = length (e_value e)) by lia.
    assert (V : e_value e' = e_value e /\ rest' = rest).
    { apply SpdmSession_Wire_Proofs.app_inj_len; [exact L|symmetry; exact X7]. }
    destruct V as (V & ->). f_equal; [|apply IH; exact R''].
    destruct e as [i r t v], e' as [i' r' t' v']. cbn [e_index e_raw e_type e_value] in *. subst.
    destruct r, r'; cbv iota in X4; (lia || (f_equal; lia)).
Qed.
Print Assumptions C77_unambiguous.

(** The length that is announced is the length that is written: a buffer of
    that length is enough, and exactly that much of it is used. *)
Theorem C77_length : forall s raw h buf n, sound s -> digests h (concat s) ->
  (get_all_length s raw (Some h) = inr n -> n <= length buf -> exists buf', get_all s raw buf = inr (n, buf')) /\
  (forall buf', get_all s raw buf = inr (n, buf') -> get_all_length s raw (Some h) = inr n).
Proof.
  intros s raw h buf n S D. unfold get_all_length. rewrite all_length_concat. split.
  - intros E L. apply (pcr_length_some _ _ _ _ _ 1%N D) in E. destruct E as (l & R & ->).
    exists (encodes l ++ skipn (length (encodes l)) buf). apply (C77_record _ _ _ _ _ S).
    exists (encodes l), l. split; [apply reads_encodes; split; [reflexivity|exact (reports_fits _ _ _ _ (proj2 S) R)]|].
    split; [exact R|]. split; [reflexivity|]. split; [exact L|reflexivity].
  - intros buf' E. apply (C77_record _ _ _ _ _ S) in E. destruct E as (record & l & Rd & R & -> & _).
    apply reads_encodes in Rd. destruct Rd as (-> & _).
    apply (pcr_length_some _ _ _ _ _ 1%N D). exists l. split; [exact R|reflexivity].
Qed.
Print Assumptions C77_length.

(** One block: the same measurement under the same number as in the record,
    in the form that was asked for; no block has number 0 or 255, or a number
    above the count. *)
Theorem C77_block : forall s id raw buf n buf', sound s -> (id < 256)%N ->
  (get_block s id raw buf = inr (n, buf') <->
   exists record v m, reads record [mkEntry id raw (m_type m) v] /\ (1 <= id <= N.of_nat (measurement_count s))%N /\
     nth_error (concat s) (N.to_nat id - 1) = Some m /\ reported raw m = Some (raw, v) /\
     n = length record /\ n <= length buf /\ buf' = record ++ skipn n buf).
Proof.
  intros s id raw buf n buf' (C & F) I. rewrite count_concat. unfold get_block, get_type. rewrite by_sequence_nth.
  assert (Vr : forall m v, value raw m = Some v <-> reported raw m = Some (raw, v)).
  { intros m v. unfold value, reported. destruct raw, (m_data m) as [[|x w]| |], (m_digest m);
      split; intros X; try discriminate; injection X as <-; reflexivity. }
  split.
  - intros E. destruct ((id =? 0)%N || (id =? 255)%N) eqn:Z; [discriminate|].
    destruct (nth_error (concat s) (N.to_nat (id - 1))) as [m|] eqn:M; [|discriminate].
    apply build_some in E. destruct E as (v & V & L & -> & ->).
    exists (encode (mkEntry id raw (m_type m) v)), v, m.
    assert (Lm : N.to_nat (id - 1) < length (concat s)) by (apply nth_error_Some; congruence).
    rewrite length_encode. cbn [e_value].
    split; [|split; [lia|split; [replace (N.to_nat id - 1) with (N.to_nat (id - 1)) by lia; exact M|split; [apply Vr; exact V|]]]].
    + apply reads_encodes. split; [unfold encodes; cbn [map concat]; symmetry; apply app_nil_r|].
      apply (reports_fits raw id [m] _); [constructor; [|constructor]|].
      * rewrite Forall_forall in F. apply F. apply nth_error_In in M. exact M.
      * constructor; [apply Vr; exact V|constructor].
    + split; [reflexivity|]. split; [exact L|reflexivity].
  - intros (record & v & m & Rd & Hid & M & V & -> & L & ->). apply reads_encodes in Rd. destruct Rd as (-> & _).
    replace ((id =? 0)%N || (id =? 255)%N) with false by lia.
    replace (N.to_nat (id - 1)) with (N.to_nat id - 1) by lia. rewrite M. apply build_some. exists v.
    unfold encodes in *. cbn [map concat] in *. rewrite app_nil_r in *. rewrite length_encode in *. cbn [e_value] in *.
    split; [apply Vr; exact V|]. split; [exact L|]. split; reflexivity.
Qed.
Print Assumptions C77_block.

(** And the length announced for a block is that of the raw block. *)
Theorem C77_block_length : forall s id n, sound s -> (id < 256)%N ->
  (get_block_length s id = inr n <-> exists buf buf', get_block s id true buf = inr (n, buf')).
Proof.
  intros s id n S I. unfold get_block_length, get_block. destruct (get_type s id) as [e|m].
  - split; [discriminate|intros (? & ? & X); discriminate].
  - split.
    + unfold bit_stream_length. intros E. destruct (m_data m) as [l| |] eqn:MD; try discriminate.
      destruct l as [|x l]; [discriminate|]. change (length (x :: l) =? 0) with false in E. cbv iota in E.
      assert (En : n = 7 + length (x :: l)) by (unfold HEADER in E; congruence). exists (repeat 0%N n). eexists.
      apply build_some. exists (x :: l). unfold value. rewrite MD, repeat_length. split; [reflexivity|].
      split; [lia|]. split; [exact En|reflexivity].
    + intros (buf & buf' & E). apply build_some in E. destruct E as (v & V & _ & -> & _). unfold value in V.
      unfold bit_stream_length. destruct (m_data m) as [[|x l]| |]; try discriminate. injection V as <-. reflexivity.
Qed.
Print Assumptions C77_block_length.

Lemma summarises_fits : forall o n ms l, Forall (fun m => (m_type m < 128)%N /\
    forall l, (m_data m = Bytes l \/ m_digest m = Bytes l) -> (N.of_nat (length l) < 65533)%N) ms ->
  summarises o n ms l -> Forall fits l.
Proof.
  intros o n ms l F S. induction S as [|n m ms d l T E S IH|n m ms l T E S IH]; [constructor| |];
    inversion F as [|? ? (T1 & B) F']; subst; [|exact (IH F')].
  constructor; [|exact (IH F')]. split; [exact T1|apply B; auto].
Qed.

(** The summary hash is that of the record of digests, of all measurements or
    of those of the TCB, which keep their numbers. *)
Theorem C77_summary : forall digest h s only_tcb buf buf', sound s ->
  Forall (fun m => forall d, m_digest m = Bytes d -> length d <= 64) (concat s) ->
  (get_summary digest h s only_tcb buf = inr buf' <->
   exists record l, reads record l /\ summarises only_tcb 1 (concat s) l /\ h <= length buf /\
     buf' = splice buf 0 (digest record)).
Proof.
  intros digest h s o buf buf' (C & F) D. unfold get_summary. rewrite all_summary_concat.
  set (k := repeat 0%N (HEADER + HASH_MAX)).
  pose proof (fun f' => pcr_summary_some (concat s) o 1 k [] f' eq_refl ltac:(lia) D) as P.
  pose proof (fun l => summarises_fits o 1 (concat s) l F) as Fit.
  split.
  - intros E. destruct (length buf <? h) eqn:L; [discriminate|].
    destruct (pcr_summary (concat s) o 1 k []) as [e|[[i k'] f]]; [discriminate|]. injection E as <-.
    destruct (proj1 (P f) (ex_intro _ i (ex_intro _ k' eq_refl))) as (l & S & Ef). cbn [app] in Ef.
    exists f, l. split; [apply reads_encodes; split; [exact Ef|exact (Fit l S)]|]. split; [exact S|].
    split; [lia|reflexivity].
  - intros (record & l & Rd & S & L & ->). apply reads_encodes in Rd. destruct Rd as (-> & _).
    replace (length buf <? h) with false by lia.
    destruct (proj2 (P (encodes l)) (ex_intro _ l (conj S eq_refl))) as (i & k' & X). rewrite X. reflexivity.
Qed.
Print Assumptions C77_summary.

(** Two PCRs with an explicit one between them: raw data, none, and a digest
    only. *)
Definition demo : store :=
  [[mkMeas 2 true (Bytes [9; 8]%N) (Bytes [1; 1]%N); mkMeas 3 false NotAvailable (Bytes [2; 2]%N)]; [];
   [mkMeas 4 true (Bytes [7]%N) (Bytes [3; 3]%N)]].
Example C77_demo :
  sound demo /\ digests 2 (concat demo) /\ measurement_count demo = 3 /\
  get_all demo true (repeat 99%N 28) =
    inr (26, [1; 1; 5; 0; 130; 2; 0; 9; 8; 2; 1; 5; 0; 3; 2; 0; 2; 2; 3; 1; 4; 0; 132; 1; 0; 7; 99; 99]%N) /\
  get_all_length demo true (Some 2) = inr 26 /\
  get_all demo true (repeat 99%N 25) = inl BufferTooSmall /\
  get_block demo 3 false (repeat 99%N 10) = inr (9, [3; 1; 5; 0; 4; 2; 0; 3; 3; 99]%N) /\
  get_block demo 2 true (repeat 99%N 10) = inl RawNotAvailable /\
  get_summary (fun l => [N.of_nat (length l)]) 1 demo true [99]%N = inr [18]%N.
Proof.
  split; [|split].
  - split; [cbn; lia|]. cbn [concat demo app]. repeat (constructor; [split; [reflexivity|intros l [X|X]; inversion X; reflexivity]|]). constructor.
  - cbn [concat demo app]. repeat (constructor; [eexists; split; reflexivity|]). constructor.
  - vm_compute. repeat split.
Qed.
