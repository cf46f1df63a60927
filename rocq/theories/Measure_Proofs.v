(** Proofs about measurement blocks. *)
From Coq Require Import List NArith Lia Bool Arith ZifyBool ZifyNat ZifyN.
From Verif Require Import Base Measure_Model Measure_Spec.
Import ListNotations.
Local Open Scope nat_scope.

Definition encode (e : entry) : list N :=
  header (e_index e) (e_raw e) (e_type e) (length (e_value e)) ++ e_value e.
Definition encodes (l : list entry) : list N := concat (map encode l).

Definition fits (e : entry) : Prop := (e_type e < 128 /\ N.of_nat (length (e_value e)) < 65533)%N.

Lemma length_header : forall i r t n, length (header i r t n) = 7.
Proof. reflexivity. Qed.

Lemma length_encode : forall e, length (encode e) = 7 + length (e_value e).
Proof. intros e. unfold encode. rewrite app_length, length_header. reflexivity. Qed.

Lemma pair_value : forall lo hi n : N, (lo < 256 -> hi < 256 -> lo + 256 * hi = n -> lo = n mod 256 /\ hi = n / 256 mod 256)%N.
Proof.
  intros lo hi n L H E. assert (D : (n / 256 = hi)%N) by (symmetry; apply N.div_unique with (r := lo); lia).
  split; [apply N.mod_unique with (q := hi); lia|]. rewrite D. symmetry. apply N.mod_small. exact H.
Qed.

Lemma value_pair : forall n, (n < 65536 -> n mod 256 + 256 * (n / 256 mod 256) = n /\ n mod 256 < 256 /\ n / 256 mod 256 < 256)%N.
Proof.
  intros n H. rewrite (N.mod_small (n / 256)) by (apply N.div_lt_upper_bound; lia).
  pose proof (N.div_mod n 256). pose proof (N.mod_lt n 256). assert (n / 256 < 256)%N by (apply N.div_lt_upper_bound; lia). lia.
Qed.

Lemma reads_encodes : forall b l, reads b l <-> b = encodes l /\ Forall fits l.
Proof.
  intros b l. split.
  - intros R. induction R as [|e lo hi lo' hi' rest l E1 E2 B R IH]; [split; [reflexivity|constructor]|].
    destruct IH as (-> & F). destruct B as (B1 & B2 & B3 & B4 & B5).
    assert (Hv : (N.of_nat (length (e_value e)) < 65533)%N) by lia.
    split; [|constructor; [split; assumption|exact F]].
    unfold encodes. cbn [map concat]. unfold encode at 2, header. unfold le16.
    replace (N.of_nat (3 + length (e_value e))) with (3 + N.of_nat (length (e_value e)))%N by lia.
    destruct (pair_value lo hi _ B1 B2 E1) as (<- & <-). destruct (pair_value lo' hi' _ B3 B4 E2) as (<- & <-).
    rewrite (N.mod_small (e_type e)) by exact B5. rewrite <- app_assoc. fold (encodes l).
    destruct (e_raw e); [rewrite (N.add_comm 128)|rewrite N.add_0_r]; reflexivity.
  - intros (-> & F). induction F as [|e l (T & L) F IH]; [constructor|].
    unfold encodes. cbn [map concat]. fold (encodes l).
    destruct (value_pair (3 + N.of_nat (length (e_value e)))%N) as (V1 & V2 & V3); [lia|].
    destruct (value_pair (N.of_nat (length (e_value e)))%N) as (W1 & W2 & W3); [lia|].
    assert (X : encode e ++ encodes l =
      [e_index e; 1; (3 + N.of_nat (length (e_value e))) mod 256; (3 + N.of_nat (length (e_value e))) / 256 mod 256;
       (if e_raw e then 128 + e_type e else e_type e); N.of_nat (length (e_value e)) mod 256;
       N.of_nat (length (e_value e)) / 256 mod 256]%N ++ e_value e ++ encodes l).
    { unfold encode, header, le16. replace (N.of_nat (3 + length (e_value e))) with (3 + N.of_nat (length (e_value e)))%N by lia.
      rewrite (N.mod_small (e_type e)) by exact T. rewrite <- app_assoc.
      destruct (e_raw e); [rewrite (N.add_comm 128)|rewrite N.add_0_r]; reflexivity. }
    rewrite X. constructor; auto.
Qed.

(** The value a block is built from. *)
Definition value (raw : bool) (m : meas) : option (list N) :=
  if raw then match m_data m with Bytes (x :: l) => Some (x :: l) | _ => None end
  else match m_digest m with Bytes d => Some d | _ => None end.

Lemma splice_block : forall id r t (v out : list N),
  splice out 0 (header id r t (length v) ++ v) = (header id r t (length v) ++ v) ++ skipn (7 + length v) out.
Proof. intros. unfold splice. rewrite app_length, length_header. reflexivity. Qed.

Lemma build_some : forall id m raw out n out', build_block id m raw out = inr (n, out') <->
  exists v, value raw m = Some v /\ 7 + length v <= length out /\ n = 7 + length v /\
    out' = encode (mkEntry id raw (m_type m) v) ++ skipn n out.
Proof.
  intros id m raw out n out'. unfold build_block, HEADER, value, bit_stream_length, encode. cbn [e_index e_raw e_type e_value].
  split.
  - intros H. destruct (length out <? 7) eqn:L; [discriminate|].
    destruct raw.
    + destruct (m_data m) as [[|x v]| |]; try discriminate.
      change (length (x :: v) =? 0) with false in H. cbv iota in H.
      destruct (length out - 7 <? length (x :: v)) eqn:M; [discriminate|]. rewrite splice_block in H.
      exists (x :: v). split; [reflexivity|]. split; [cbn [length] in *; lia|].
      assert (Hn : n = 7 + length (x :: v)) by congruence. split; [exact Hn|]. rewrite Hn. congruence.
    + destruct (m_digest m) as [d| |]; try discriminate.
      destruct (length out - 7 <? length d) eqn:M; [discriminate|]. rewrite splice_block in H.
      exists d. split; [reflexivity|]. split; [lia|].
      assert (Hn : n = 7 + length d) by congruence. split; [exact Hn|]. rewrite Hn. congruence.
  - intros (v & V & L & -> & ->). replace (length out <? 7) with false by lia.
    destruct raw.
    + destruct (m_data m) as [[|x w]| |]; try discriminate. injection V as <-.
      change (length (x :: w) =? 0) with false. cbv iota.
      replace (length out - 7 <? length (x :: w)) with false by (cbn [length] in *; lia).
      rewrite splice_block. reflexivity.
    + destruct (m_digest m) as [d| |]; try discriminate. injection V as <-.
      replace (length out - 7 <? length d) with false by lia.
      rewrite splice_block. reflexivity.
Qed.

Definition block_or_digest (id : N) (m : meas) (raw : bool) (out : list N) : error + (nat * list N) :=
  match build_block id m raw out with
  | inl RawNotAvailable => build_block id m false out
  | r => r
  end.

Lemma build_unavailable : forall id m out, build_block id m true out = inl RawNotAvailable <->
  7 <= length out /\ (m_data m = NotAvailable \/ m_data m = Bytes []).
Proof.
  intros id m out. unfold build_block, HEADER, bit_stream_length. destruct (length out <? 7) eqn:L.
  - split; [discriminate|lia].
  - destruct (m_data m) as [[|x v]| |].
    + split; [intros _; split; [lia|right; reflexivity]|reflexivity].
    + change (length (x :: v) =? 0) with false. cbv iota.
      destruct (length out - 7 <? length (x :: v)); split; try discriminate; intros (_ & [H|H]); discriminate.
    + split; [intros _; split; [lia|left; reflexivity]|reflexivity].
    + split; [discriminate|]. intros (_ & [H|H]); discriminate.
Qed.

Lemma build_raw_digest : forall id m out, build_block id m false out <> inl RawNotAvailable.
Proof.
  intros id m out. unfold build_block. destruct (length out <? HEADER); [discriminate|].
  destruct (m_digest m); try discriminate. destruct (length out - HEADER <? length l); discriminate.
Qed.

Lemma step_some : forall id m raw out n out', block_or_digest id m raw out = inr (n, out') <->
  exists r v, reported raw m = Some (r, v) /\ 7 + length v <= length out /\ n = 7 + length v /\
    out' = encode (mkEntry id r (m_type m) v) ++ skipn n out.
Proof.
  intros id m raw out n out'. unfold block_or_digest.
  destruct raw.
  - destruct (build_block id m true out) as [e|[n0 o0]] eqn:B.
    + assert (D : e = RawNotAvailable \/ e <> RawNotAvailable) by (destruct e; auto; right; discriminate).
      destruct D as [-> |D].
      * apply build_unavailable in B. destruct B as (L & U). rewrite build_some. unfold value, reported.
        split.
        -- intros (v & V & R). exists false, v. split; [|exact R].
           destruct (m_digest m); try discriminate. injection V as <-. destruct U as [-> | ->]; reflexivity.
        -- intros (r & v & V & R). exists v.
           destruct U as [U|U]; rewrite U in V; destruct (m_digest m); try discriminate; injection V as <- <-;
             (split; [reflexivity|exact R]).
      * split.
        -- destruct e; discriminate || congruence.
        -- intros (r & v & V & L & -> & ->). exfalso. unfold reported in V.
           destruct (m_data m) as [[|x w]| |] eqn:MD.
           ++ assert (X : build_block id m true out = inl RawNotAvailable) by (apply build_unavailable; split; [lia|auto]). congruence.
           ++ injection V as <- <-. assert (X : exists n o, build_block id m true out = inr (n, o)).
              { eexists _, _. apply build_some. exists (x :: w). unfold value. rewrite MD.
                split; [reflexivity|]. split; [exact L|]. split; reflexivity. }
              destruct X as (n & o & X). congruence.
           ++ assert (X : build_block id m true out = inl RawNotAvailable) by (apply build_unavailable; split; [lia|auto]). congruence.
           ++ discriminate.
    + rewrite <- B, build_some. unfold value, reported. split.
      * intros (v & V & R). exists true, v. destruct (m_data m) as [[|x w]| |]; try discriminate. injection V as <-.
        split; [reflexivity|exact R].
      * intros (r & v & V & R). apply build_some in B. destruct B as (v0 & V0 & _). unfold value in V0.
        destruct (m_data m) as [[|x w]| |]; try discriminate. injection V as <- <-. exists (x :: w). split; [reflexivity|exact R].
  - assert (X : (match build_block id m false out with inl RawNotAvailable => build_block id m false out | r => r end) =
      build_block id m false out) by (destruct (build_block id m false out) as [[]|]; reflexivity).
    rewrite X, build_some. unfold value, reported. split.
    + intros (v & V & R). exists false, v. destruct (m_digest m); try discriminate. injection V as <-. split; [reflexivity|exact R].
    + intros (r & v & V & R). exists v. destruct (m_digest m); try discriminate. injection V as <- <-. split; [reflexivity|exact R].
Qed.

Lemma pcr_blocks_app : forall a b raw id total buf,
  pcr_blocks (a ++ b) raw id total buf =
  match pcr_blocks a raw id total buf with
  | inl e => inl e
  | inr (id, total, buf) => pcr_blocks b raw id total buf
  end.
Proof.
  induction a as [|m a IH]; intros b raw id total buf; [reflexivity|]. cbn [app pcr_blocks].
  fold (block_or_digest id m raw (skipn total buf)).
  destruct (block_or_digest id m raw (skipn total buf)) as [e|[n o]]; [reflexivity|apply IH].
Qed.

Lemma all_blocks_concat : forall s raw id total buf,
  all_blocks s raw id total buf =
  match pcr_blocks (concat s) raw id total buf with inl e => inl e | inr (_, t, b) => inr (t, b) end.
Proof.
  induction s as [|p s IH]; intros raw id total buf; [reflexivity|]. cbn [all_blocks concat].
  rewrite pcr_blocks_app. destruct (pcr_blocks p raw id total buf) as [e|[[i t] b]]; [reflexivity|apply IH].
Qed.

Lemma pcr_blocks_some : forall ms raw id total buf t b, total <= length buf ->
  (N.to_nat id + length ms <= 256) ->
  ((exists id', pcr_blocks ms raw id total buf = inr (id', t, b)) <->
   exists l, reports raw id ms l /\ t = total + length (encodes l) /\ t <= length buf /\
     b = firstn total buf ++ encodes l ++ skipn t buf).
Proof.
  induction ms as [|m ms IH]; intros raw id total buf t b L I; cbn [pcr_blocks].
  - split.
    + intros (id' & E). injection E as <- <- <-. exists []. split; [constructor|].
      cbn. split; [lia|]. split; [lia|]. symmetry. apply firstn_skipn.
    + intros (l & R & -> & T & ->). inversion R; subst. exists id. cbn [encodes map concat length app].
      rewrite Nat.add_0_r, firstn_skipn. reflexivity.
  - fold (block_or_digest id m raw (skipn total buf)). cbn [length] in I.
    assert (Lo : length (skipn total buf) = length buf - total) by apply skipn_length.
    assert (Step : forall n o, block_or_digest id m raw (skipn total buf) = inr (n, o) ->
      exists r v, reported raw m = Some (r, v) /\ n = length (encode (mkEntry id r (m_type m) v)) /\
        total + n <= length buf /\
        firstn total buf ++ o = firstn total buf ++ encode (mkEntry id r (m_type m) v) ++ skipn (total + n) buf).
    { intros n o B. apply step_some in B. destruct B as (r & v & R & Ln & -> & ->). exists r, v.
      split; [exact R|]. rewrite length_encode. cbn [e_value]. split; [lia|]. split; [lia|].
      rewrite skipn_skipn. reflexivity. }
    assert (Next : forall r v, let c := encode (mkEntry id r (m_type m) v) in total + length c <= length buf ->
      let buf1 := firstn total buf ++ c ++ skipn (total + length c) buf in
      length buf1 = length buf /\ firstn (total + length c) buf1 = firstn total buf ++ c /\
      (forall k, total + length c <= k -> skipn k buf1 = skipn k buf)).
    { intros r v c Lc buf1.
      assert (Lf : length (firstn total buf) = total) by (apply firstn_length_le; exact L).
      split; [unfold buf1; rewrite !app_length, skipn_length, Lf; lia|]. split.
      - unfold buf1. rewrite app_assoc, firstn_app, app_length, Lf, Nat.sub_diag. cbn [firstn].
        rewrite app_nil_r. rewrite <- Lf at 1. rewrite <- app_length. apply firstn_all.
      - intros k K. unfold buf1. rewrite app_assoc, skipn_app_ge; rewrite app_length, Lf; [|lia].
        rewrite skipn_skipn. f_equal. lia. }
    assert (Idx : ms <> [] -> ((id + 1) mod 256 = id + 1)%N).
    { intros N. apply N.mod_small. destruct ms; [congruence|]. cbn [length] in I. lia. }
    split.
    + intros (id' & E). destruct (block_or_digest id m raw (skipn total buf)) as [e|[n o]] eqn:B; [discriminate|].
      destruct (Step n o eq_refl) as (r & v & R & -> & Lc & Q). rewrite Q in E.
      destruct (Next r v Lc) as (N1 & N2 & N3).
      set (c := encode (mkEntry id r (m_type m) v)) in *. set (buf1 := firstn total buf ++ c ++ skipn (total + length c) buf) in *.
      destruct ms as [|m' ms'].
      * cbn [pcr_blocks] in E. assert (Et : t = total + length c) by congruence.
        assert (Eb : b = buf1) by congruence. rewrite Et, Eb. clear E. exists [mkEntry id r (m_type m) v].
        split; [constructor; [exact R|constructor]|]. unfold encodes. cbn [map concat]. fold c. rewrite app_nil_r.
        split; [reflexivity|]. split; [lia|reflexivity].
      * rewrite (Idx ltac:(discriminate)) in E.
        destruct (IH raw (id + 1)%N (total + length c) buf1 t b) as (IH1 & _); [lia|cbn [length] in *; lia|].
        destruct (IH1 (ex_intro _ id' E)) as (l & Rl & -> & T & ->).
        exists (mkEntry id r (m_type m) v :: l). split; [constructor; assumption|].
        unfold encodes. cbn [map concat]. fold c. fold (encodes l). rewrite app_length. split; [lia|]. split; [lia|].
        rewrite N2, N3 by lia. rewrite <- !app_assoc. reflexivity.
    + intros (l & Rl & -> & T & ->). inversion Rl as [|? ? ? r v l' R Rl']; subst.
      unfold encodes in T |- *. cbn [map concat] in T |- *. fold (encodes l') in T |- *.
      set (c := encode (mkEntry id r (m_type m) v)) in *. rewrite app_length in T.
      assert (B : block_or_digest id m raw (skipn total buf) = inr (length c, c ++ skipn (length c) (skipn total buf))).
      { apply step_some. exists r, v. split; [exact R|]. unfold c in *. rewrite length_encode in *. cbn [e_value] in *.
        split; [lia|]. split; reflexivity. }
      rewrite B, skipn_skipn. assert (Lc : total + length c <= length buf) by lia.
      destruct (Next r v Lc) as (N1 & N2 & N3). fold c in N1, N2, N3.
      set (buf1 := firstn total buf ++ c ++ skipn (total + length c) buf) in *.
      destruct ms as [|m' ms'].
      * inversion Rl'; subst. cbn [pcr_blocks]. eexists. unfold buf1, encodes. cbn [map concat]. rewrite app_nil_r. reflexivity.
      * rewrite (Idx ltac:(discriminate)).
        destruct (IH raw (id + 1)%N (total + length c) buf1 (total + length (c ++ encodes l'))
          (firstn total buf ++ (c ++ encodes l') ++ skipn (total + length (c ++ encodes l')) buf)) as (_ & IH2);
          [lia|cbn [length] in *; lia|].
        apply IH2. exists l'. split; [exact Rl'|]. rewrite app_length. split; [lia|]. split; [lia|].
        rewrite N2, N3 by lia. rewrite <- !app_assoc. reflexivity.
Qed.

Lemma by_sequence_nth : forall s id, by_sequence s id = nth_error (concat s) id.
Proof.
  induction s as [|p s IH]; intros id; cbn [by_sequence concat]; [destruct id; reflexivity|].
  destruct (length p =? 0) eqn:E.
  - destruct p; [|discriminate]. apply IH.
  - destruct (length p <=? id) eqn:L.
    + rewrite nth_error_app2 by lia. apply IH.
    + rewrite nth_error_app1 by lia. reflexivity.
Qed.

Lemma count_concat : forall s, measurement_count s = length (concat s).
Proof.
  intros s. unfold measurement_count.
  assert (G : forall (s : store) (n : nat), fold_left (fun n (p : list meas) => n + length p) s n = n + length (concat s)).
  { clear s. induction s as [|p t IH]; intros n; cbn [fold_left concat]; [cbn [length]; lia|]. rewrite IH, app_length. lia. }
  apply (G s 0).
Qed.

Lemma pcr_length_app : forall a b raw h t, pcr_length (a ++ b) raw h t =
  match pcr_length a raw h t with inl e => inl e | inr t => pcr_length b raw h t end.
Proof.
  induction a as [|m a IH]; intros b raw h t; [reflexivity|]. cbn [app pcr_length].
  match goal with |- context[match ?x with inl e => inl e | inr n => pcr_length _ _ _ _ end] => destruct x end;
    [reflexivity|apply IH].
Qed.

Lemma all_length_concat : forall s raw h t, all_length s raw h t = pcr_length (concat s) raw h t.
Proof.
  induction s as [|p s IH]; intros raw h t; [reflexivity|]. cbn [all_length concat]. rewrite pcr_length_app.
  destruct (pcr_length p raw h t); [reflexivity|apply IH].
Qed.

(** Digests can be had, and have the length of the hash. *)
Definition digests (h : nat) (ms : list meas) : Prop := Forall (fun m => exists d, m_digest m = Bytes d /\ length d = h) ms.

Lemma pcr_length_some : forall ms raw h t n id, digests h ms ->
  (pcr_length ms raw h t = inr n <-> exists l, reports raw id ms l /\ n = t + length (encodes l)).
Proof.
  induction ms as [|m ms IH]; intros raw h t n id D; cbn [pcr_length].
  - split.
    + intros E. injection E as <-. exists []. split; [constructor|cbn; lia].
    + intros (l & R & ->). inversion R; subst. cbn. f_equal. lia.
  - inversion D as [|? ? (d & Dm & Dl) D']; subst.
    assert (V : forall k, (if raw then match bit_stream_length m with inl RawNotAvailable => inr (length d) | r => r end
        else inr (length d)) = inr k <-> exists r v, reported raw m = Some (r, v) /\ k = length v).
    { intros k. unfold bit_stream_length, reported. rewrite Dm. destruct raw.
      - destruct (m_data m) as [[|x w]| |]; cbn [length Nat.eqb].
        + split; [intros [= <-]; exists false, d; auto|intros (r & v & [= <- <-] & ->); reflexivity].
        + split; [intros [= <-]; exists true, (x :: w); auto|intros (r & v & [= <- <-] & ->); reflexivity].
        + split; [intros [= <-]; exists false, d; auto|intros (r & v & [= <- <-] & ->); reflexivity].
        + split; [discriminate|intros (r & v & X & _); discriminate].
      - destruct (m_data m) as [[|x w]| |];
          (split; [intros [= <-]; exists false, d; auto|intros (r & v & [= <- <-] & ->); reflexivity]). }
    split.
    + intros E.
      destruct (if raw then match bit_stream_length m with inl RawNotAvailable => inr (length d) | r => r end
        else inr (length d)) as [e|k] eqn:K; [discriminate|]. destruct (proj1 (V k) eq_refl) as (r & v & R & ->).
      apply (IH raw (length d) _ n (id + 1)%N D') in E. destruct E as (l & Rl & ->).
      exists (mkEntry id r (m_type m) v :: l). split; [constructor; assumption|].
      unfold encodes. cbn [map concat]. rewrite app_length, length_encode. unfold encodes, HEADER. cbn [e_value]. lia.
    + intros (l & Rl & ->). inversion Rl as [|? ? ? r v l' R Rl']; subst.
      assert (K : (if raw then match bit_stream_length m with inl RawNotAvailable => inr (length d) | r => r end
        else inr (length d)) = inr (length v)) by (apply V; exists r, v; split; [exact R|reflexivity]).
      rewrite K. apply (IH raw (length d) _ _ (id + 1)%N D'). exists l'. split; [exact Rl'|].
      unfold encodes. cbn [map concat]. rewrite app_length, length_encode. unfold HEADER. cbn [e_value]. lia.
Qed.

Lemma pcr_summary_app : forall a b o id k f, pcr_summary (a ++ b) o id k f =
  match pcr_summary a o id k f with inl e => inl e | inr (id, k, f) => pcr_summary b o id k f end.
Proof.
  induction a as [|m a IH]; intros b o id k f; [reflexivity|]. cbn [app pcr_summary].
  destruct (negb o || m_tcb m); [|apply IH]. destruct (build_block id m false k) as [e|[n k']]; [reflexivity|apply IH].
Qed.

Lemma all_summary_concat : forall s o id k f, all_summary s o id k f =
  match pcr_summary (concat s) o id k f with inl e => inl e | inr (_, _, f) => inr f end.
Proof.
  induction s as [|p s IH]; intros o id k f; [reflexivity|]. cbn [all_summary concat]. rewrite pcr_summary_app.
  destruct (pcr_summary p o id k f) as [e|[[i k'] f']]; [reflexivity|apply IH].
Qed.

Lemma pcr_summary_some : forall ms o id k f f', length k = 71 -> N.to_nat id + length ms <= 256 ->
  Forall (fun m => forall d, m_digest m = Bytes d -> length d <= 64) ms ->
  ((exists i k', pcr_summary ms o id k f = inr (i, k', f')) <->
   exists l, summarises o id ms l /\ f' = f ++ encodes l).
Proof.
  induction ms as [|m ms IH]; intros o id k f f' Lk I D; cbn [pcr_summary].
  - split.
    + intros (i & k' & E). injection E as <- <- <-. exists []. split; [constructor|]. cbn. rewrite app_nil_r. reflexivity.
    + intros (l & R & ->). inversion R; subst. cbn. rewrite app_nil_r. exists id, k. reflexivity.
  - inversion D as [|? ? Dm D']; subst. cbn [length] in I.
    assert (Idx : forall k f, length k = 71 ->
      ((exists i k', pcr_summary ms o ((id + 1) mod 256) k f = inr (i, k', f')) <->
       exists l, summarises o (id + 1) ms l /\ f' = f ++ encodes l)).
    { intros k0 f0 Lk0. destruct ms as [|m' ms'].
      - cbn [pcr_summary]. split.
        + intros (i & k' & E). injection E as <- <- <-. exists []. split; [constructor|]. cbn. rewrite app_nil_r. reflexivity.
        + intros (l & R & ->). inversion R; subst. cbn. rewrite app_nil_r. eexists _, _. reflexivity.
      - rewrite (N.mod_small (id + 1)) by (cbn [length] in I; lia). apply IH; [exact Lk0|cbn [length] in *; lia|exact D']. }
    destruct (negb o || m_tcb m) eqn:T.
    + assert (T' : o = false \/ m_tcb m = true) by (destruct o, (m_tcb m); auto; discriminate).
      assert (Nskip : ~ (o = true /\ m_tcb m = false)) by (destruct T' as [-> | ->]; intros (? & ?); discriminate).
      destruct (build_block id m false k) as [e|[n k1]] eqn:B.
      * split; [intros (? & ? & E); discriminate|]. intros (l & R & _). exfalso.
        inversion R as [|? ? ? d l' _ Md Rl|? ? ? ? O1 O2 _]; subst; [|tauto].
        assert (X : exists n o, build_block id m false k = inr (n, o)).
        { eexists _, _. apply build_some. exists d. unfold value. rewrite Md. split; [reflexivity|].
          specialize (Dm d Md). split; [lia|]. split; reflexivity. }
        destruct X as (? & ? & X). congruence.
      * apply build_some in B. destruct B as (v & V & Lv & -> & ->). unfold value in V.
        destruct (m_digest m) as [d| |] eqn:Md; try discriminate. injection V as <-.
        set (c := encode (mkEntry id false (m_type m) d)).
        assert (Lc : length c = 7 + length d) by apply length_encode.
        rewrite (Idx _ _) by (rewrite app_length, skipn_length, Lc; lia).
        assert (F : firstn (7 + length d) (c ++ skipn (7 + length d) k) = c).
        { rewrite <- Lc. rewrite firstn_app, Nat.sub_diag, firstn_all. apply app_nil_r. }
        rewrite F. split.
        -- intros (l & R & ->). exists (mkEntry id false (m_type m) d :: l). split; [apply sm_next; assumption|].
           unfold encodes. cbn [map concat]. rewrite <- app_assoc. reflexivity.
        -- intros (l & R & ->). inversion R as [|? ? ? d' l' _ Md' Rl|? ? ? ? O1 O2 _]; subst; [|tauto].
           rewrite Md in Md'. injection Md' as <-. exists l'. split; [exact Rl|].
           unfold encodes. cbn [map concat]. rewrite <- app_assoc. reflexivity.
    + assert (T' : o = true /\ m_tcb m = false) by (destruct o, (m_tcb m); auto; discriminate).
      destruct T' as (-> & T'). rewrite (Idx _ _ Lk). split.
      * intros (l & R & ->). exists l. split; [apply sm_skip; auto|reflexivity].
      * intros (l & R & ->). inversion R as [|? ? ? d' l' O1 _ _|? ? ? ? _ _ Rl]; subst.
        -- destruct O1; congruence.
        -- exists l. split; [exact Rl|reflexivity].
Qed.
