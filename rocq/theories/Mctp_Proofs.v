(** Proofs about MCTP packets. *)
From Coq Require Import List NArith ZArith Lia Bool Arith ZifyBool ZifyNat ZifyN.
From Verif Require Import Base Crc8_Model FlashStore_Layout_Proofs KeyWrap_Proofs Mctp_Model Mctp_Spec.
Import ListNotations.
Local Open Scope nat_scope.

(** * Splicing adjacent pieces *)
Lemma splice_append : forall (m a b : list N) o, o + length a + length b <= length m ->
  splice (splice m o a) (o + length a) b = splice m o (a ++ b).
Proof.
  intros m a b o H. unfold splice. rewrite app_length.
  rewrite (app_assoc (firstn o m) a). rewrite firstn_app_le by (rewrite app_length, firstn_length; lia).
  rewrite firstn_all2 by (rewrite app_length, firstn_length; lia).
  rewrite skipn_app_ge by (rewrite app_length, firstn_length; lia).
  rewrite skipn_skipn, <- !app_assoc. do 4 f_equal. rewrite app_length, firstn_length. lia.
Qed.

Lemma splice_prepend : forall (m a b : list N) o, o + length a + length b <= length m ->
  splice (splice m (o + length a) b) o a = splice m o (a ++ b).
Proof.
  intros m a b o H. unfold splice. rewrite app_length.
  rewrite firstn_app_le by (rewrite firstn_length; lia). rewrite firstn_firstn, Nat.min_l by lia. f_equal.
  rewrite <- app_assoc. f_equal.
  rewrite skipn_app_ge by (rewrite firstn_length; lia). rewrite firstn_length, Nat.min_l by lia.
  rewrite Nat.sub_diag. cbn [skipn]. now rewrite Nat.add_assoc.
Qed.

Lemma skipn_splice : forall (m a : list N) o, o <= length m -> skipn o (splice m o a) = a ++ skipn (o + length a) m.
Proof.
  intros m a o H. unfold splice. rewrite skipn_app_ge by (rewrite firstn_length; lia).
  rewrite firstn_length, Nat.min_l, Nat.sub_diag by lia. reflexivity.
Qed.

Lemma window_splice_away : forall (m a : list N) o s n, o + length a <= length m ->
  s + n <= o \/ o + length a <= s -> window s n (splice m o a) = window s n m.
Proof.
  intros m a o s n H D. unfold window, splice. destruct D as [D|D].
  - rewrite skipn_app_le by (rewrite firstn_length; lia). rewrite firstn_app_le by (rewrite skipn_length, firstn_length; lia).
    rewrite skipn_firstn_comm, firstn_firstn. f_equal. lia.
  - rewrite skipn_app_ge by (rewrite firstn_length; lia). rewrite skipn_app_ge by (rewrite firstn_length; lia).
    rewrite skipn_skipn. do 2 f_equal. rewrite firstn_length. lia.
Qed.

Lemma crc8_prefix : forall a l m, length l < 256 -> crc8 a (Some (l ++ m)) (length l) = crc8 a (Some l) (length l).
Proof.
  intros a l m H. unfold crc8, crc8_update. rewrite Nat.mod_small by lia.
  destruct (Nat.eqb_spec (length l) 0); auto. now rewrite firstn_app_le, firstn_all by lia.
Qed.

(** * One packet *)
Definition packet_body (sa de se : N) (som eom : bool) (seq tag owner : N) (d : list N) : list N :=
  transport_header (length d) sa de se som eom seq tag owner ++ d.

Definition packet_bytes (sa de se : N) (som eom : bool) (seq tag owner da : N) (d : list N) : list N :=
  packet_body sa de se som eom seq tag owner d ++
  [crc8 ((2 * da) mod 256) (Some (packet_body sa de se som eom seq tag owner d)) (length d + 7)].

Lemma length_packet_body : forall sa de se som eom seq tag owner d,
  length (packet_body sa de se som eom seq tag owner d) = length d + 7.
Proof. intros. unfold packet_body. rewrite app_length. cbn [transport_header length]. lia. Qed.

Lemma length_packet_bytes : forall sa de se som eom seq tag owner da d,
  length (packet_bytes sa de se som eom seq tag owner da d) = 8 + length d.
Proof. intros. unfold packet_bytes. rewrite app_length, length_packet_body. cbn [length]. lia. Qed.

Lemma construct_spec : forall mem src n out room sa de se som eom seq tag owner da,
  1 <= n <= 247 -> 8 + n <= room -> src + n <= length mem -> out + 8 + n <= length mem ->
  construct mem src n out room sa de se som eom seq tag owner da =
  inl (splice mem out (packet_bytes sa de se som eom seq tag owner da (window src n mem)), 8 + n).
Proof.
  intros mem src n out room sa de se som eom seq tag owner da Hn Hr Hs Ho. unfold construct, MAX_UNIT, OVERHEAD.
  destruct (Nat.eqb_spec n 0); [lia|]. destruct (Nat.ltb_spec 247 n); [lia|]. cbn [orb].
  destruct (Nat.ltb_spec room (8 + n)); [lia|]. cbn zeta.
  assert (LW: length (window src n mem) = n) by (rewrite length_window; lia).
  set (d := window src n mem) in *. clearbody d. subst n.
  set (h := transport_header (length d) sa de se som eom seq tag owner).
  assert (LH: length h = 7) by reflexivity.
  assert (E1: splice (splice mem (out + HDR) d) out h = splice mem out (packet_body sa de se som eom seq tag owner d)).
  { unfold HDR. rewrite <- LH. rewrite splice_prepend by lia. reflexivity. }
  rewrite E1. do 2 f_equal. replace (8 + length d - 1) with (length d + 7) by lia.
  rewrite skipn_splice by lia.
  pose proof (length_packet_body sa de se som eom seq tag owner d) as LB.
  rewrite <- LB at 1. rewrite crc8_prefix by lia. rewrite LB.
  unfold packet_bytes. rewrite <- splice_append by (rewrite LB; cbn [length]; lia). rewrite LB. f_equal. unfold HDR. lia.
Qed.

Lemma flags_fields : forall tag owner seq e s, let f := (tag mod 8 + 8 * (owner mod 2) + 16 * (seq mod 4) + 64 * bit e + 128 * bit s)%N in
  N.testbit f 7 = s /\ N.testbit f 6 = e /\ (f mod 8 = tag mod 8)%N /\ ((f / 16) mod 4 = seq mod 4)%N /\ ((f / 8) mod 2 = owner mod 2)%N.
Proof.
  intros tag owner seq e s f.
  pose proof (N.mod_lt tag 8 ltac:(lia)) as A. pose proof (N.mod_lt owner 2 ltac:(lia)) as B. pose proof (N.mod_lt seq 4 ltac:(lia)) as C.
  unfold f. clear f. generalize dependent (tag mod 8)%N. generalize dependent (owner mod 2)%N. generalize dependent (seq mod 4)%N.
  intros c C b B a A. rewrite !N.testbit_eqb. change (2 ^ 7)%N with 128%N. change (2 ^ 6)%N with 64%N.
  assert (D: (bit e < 2)%N) by (destruct e; reflexivity). assert (E: (bit s < 2)%N) by (destruct s; reflexivity).
  set (f := (a + 8 * b + 16 * c + 64 * bit e + 128 * bit s)%N).
  assert (F7: (f / 128 = bit s)%N) by (symmetry; apply (N.div_unique f 128 (bit s) (a + 8 * b + 16 * c + 64 * bit e)); unfold f; lia).
  assert (F6: (f / 64 = bit e + 2 * bit s)%N) by (symmetry; apply (N.div_unique f 64 (bit e + 2 * bit s) (a + 8 * b + 16 * c)); unfold f; lia).
  assert (F4: (f / 16 = c + 4 * (bit e + 2 * bit s))%N) by (symmetry; apply (N.div_unique f 16 (c + 4 * (bit e + 2 * bit s)) (a + 8 * b)); unfold f; lia).
  assert (F3: (f / 8 = b + 2 * (c + 4 * (bit e + 2 * bit s)))%N) by (symmetry; apply (N.div_unique f 8 (b + 2 * (c + 4 * (bit e + 2 * bit s))) a); unfold f; lia).
  rewrite F7, F6, F4, F3. splits.
  - destruct s; reflexivity.
  - destruct e, s; reflexivity.
  - symmetry. apply (N.mod_unique f 8 (b + 2 * (c + 4 * (bit e + 2 * bit s)))); unfold f; lia.
  - symmetry. apply (N.mod_unique _ 4 (bit e + 2 * bit s)); lia.
  - symmetry. apply (N.mod_unique _ 2 (c + 4 * (bit e + 2 * bit s))); lia.
Qed.

(** The packet that was put in. *)
Definition built (sa de se : N) (som eom : bool) (seq tag owner : N) (d : list N) : packet :=
  {| p_source_addr := sa; p_som := som; p_eom := eom; p_src_eid := se; p_dest_eid := de; p_payload := d;
     p_tag := tag; p_seq := seq; p_type := if som then (nth 0 d 0 mod 128)%N else 0%N; p_owner := owner |}.

Lemma interpret_packet_bytes : forall sa de se som eom seq tag owner da d,
  (sa < 128)%N -> de <> se -> (seq < 4)%N -> (tag < 8)%N -> (owner < 2)%N -> 1 <= length d <= 247 ->
  interpret (packet_bytes sa de se som eom seq tag owner da d) da = inl (built sa de se som eom seq tag owner d).
Proof.
  intros sa de se som eom seq tag owner da d Hsa Hne Hseq Htag How Hd.
  pose proof (flags_fields tag owner seq eom som) as F. cbn zeta in F.
  rewrite (N.mod_small tag), (N.mod_small owner), (N.mod_small seq) in F by assumption.
  set (buf := packet_bytes sa de se som eom seq tag owner da d).
  assert (A6: at_ 6 buf = (tag + 8 * owner + 16 * seq + 64 * bit eom + 128 * bit som)%N).
  { unfold buf, at_, packet_bytes, packet_body, transport_header. cbn [app nth].
    rewrite (N.mod_small tag), (N.mod_small owner), (N.mod_small seq) by assumption. reflexivity. }
  set (f := (tag + 8 * owner + 16 * seq + 64 * bit eom + 128 * bit som)%N) in *. destruct F as (F1 & F2 & F3 & F4 & F5).
  assert (A0: at_ 0 buf = 0x0F%N) by reflexivity. assert (A3: at_ 3 buf = 1%N) by reflexivity.
  assert (A4: at_ 4 buf = de) by reflexivity. assert (A5: at_ 5 buf = se) by reflexivity.
  assert (A1: N.to_nat (at_ 1 buf) = length d + 5).
  { unfold buf, at_, packet_bytes, packet_body, transport_header. cbn [app nth]. rewrite N.mod_small by lia. lia. }
  assert (A2: (at_ 2 buf / 2 = sa)%N).
  { unfold buf, at_, packet_bytes, packet_body, transport_header. cbn [app nth]. rewrite N.mod_small by lia.
    symmetry. apply (N.div_unique _ 2 sa 1); lia. }
  assert (LB: length buf = 8 + length d) by apply length_packet_bytes.
  assert (PL: window HDR (length d + 5 + 2 - HDR) buf = d).
  { unfold buf, packet_bytes, packet_body, HDR. rewrite <- app_assoc.
    change 7 with (length (transport_header (length d) sa de se som eom seq tag owner) + 0) at 1.
    rewrite window_mid by lia. replace (length d + 5 + 2 - 7) with (length d) by lia. unfold window. cbn [skipn]. apply firstn_all. }
  unfold interpret. rewrite A0, A1, A2, A3, A4, A5, A6, PL. rewrite LB.
  destruct (Nat.ltb_spec (8 + length d) HDR); [unfold HDR in *; lia|]. cbn zeta. rewrite F1, F2, F3, F4, F5.
  assert (C: (negb (15 =? 15)%N || negb (1 / 16 =? 0)%N || negb (1 mod 16 =? 1)%N || (de =? se)%N) = false)
    by (destruct (N.eqb_spec de se); [contradiction|reflexivity]).
  rewrite C. clear C.
  destruct (Nat.leb_spec (length d + 5 + 2) HDR); [unfold HDR in *; lia|].
  destruct (Nat.ltb_spec (8 + length d) (length d + 5 + 2)); [lia|].
  destruct (Nat.ltb_spec (length d + 5 + 2) (8 + length d)); [|lia].
  assert (CR: crc8 ((2 * da) mod 256) (Some buf) (length d + 5 + 2) = at_ (length d + 5 + 2) buf).
  { unfold buf, packet_bytes, at_. pose proof (length_packet_body sa de se som eom seq tag owner d) as LP.
    set (b := packet_body sa de se som eom seq tag owner d) in *. clearbody b.
    replace (length d + 5 + 2) with (length b) by lia. rewrite crc8_prefix by lia.
    rewrite app_nth2, Nat.sub_diag by lia. cbn [nth]. rewrite LP. reflexivity. }
  rewrite CR, N.eqb_refl. reflexivity.
Qed.

Lemma interpret_bounds : forall buf da p, interpret buf da = inl p ->
  let len := length (p_payload p) in
  1 <= len /\ 7 + len <= length buf /\ p_payload p = window 7 len buf /\ len = N.to_nat (nth 1 buf 0%N) - 5 /\
  (7 + len < length buf -> crc8 ((2 * da) mod 256) (Some buf) (7 + len) = nth (7 + len) buf 0%N).
Proof.
  intros buf da p H. cbn zeta. unfold interpret, at_, HDR in H.
  destruct (Nat.ltb_spec (length buf) 7); [discriminate|]. cbn zeta in H.
  destruct (_ || _); [discriminate|]. destruct (Nat.leb_spec (N.to_nat (nth 1 buf 0%N) + 2) 7); [discriminate|].
  destruct (Nat.ltb_spec (length buf) (N.to_nat (nth 1 buf 0%N) + 2)); [discriminate|].
  set (k := N.to_nat (nth 1 buf 0%N)) in *.
  assert (LW: length (window 7 (k + 2 - 7) buf) = k + 2 - 7) by (rewrite length_window; lia).
  assert (E: 7 + (k + 2 - 7) = k + 2) by lia.
  destruct (Nat.ltb_spec (k + 2) (length buf)).
  - destruct (N.eqb_spec (crc8 ((2 * da) mod 256) (Some buf) (k + 2)) (nth (k + 2) buf 0%N)); [|discriminate].
    injection H as <-. cbn [p_payload]. rewrite LW, E. splits; auto; lia.
  - injection H as <-. cbn [p_payload]. rewrite LW, E. splits; auto; lia.
Qed.
