(** Manifests: what the steps read and hash. *)
From Coq Require Import List NArith Lia Bool Arith.
From Coq Require Import ZifyBool ZifyNat ZifyN.
From Verif Require Import Base Pcr_Proofs Manifest_Model Manifest_Spec.
Import ListNotations.
Local Open Scope N_scope.

(** * Encodings *)

Lemma le16_u16 : forall l o, (o + 2 <= length l)%nat -> bytes_ok l -> le16 (u16 l o) = window o 2 l.
Proof.
  intros l o L B. unfold u16. assert (W: length (window o 2 l) = 2%nat) by (rewrite length_window; lia).
  assert (BW: bytes_ok (window o 2 l)) by (unfold window, bytes_ok in *; apply Forall_firstn; now apply Forall_skipn).
  destruct (window o 2 l) as [|a [|b [|? ?]]]; try discriminate W. inversion BW as [|? ? A BW1]; subst. inversion BW1 as [|? ? B1 ?]; subst.
  unfold byte_ok in *. cbn [le_value]. unfold le16.
  set (v := a + 256 * (b + 256 * 0)). repeat f_equal.
  - symmetry. apply (N.mod_unique v 256 b); subst v; lia.
  - replace (v / 256) with b by (apply (N.div_unique v 256 b a); subst v; lia). now apply N.mod_small.
Qed.

Lemma le32_u32 : forall l o, (o + 4 <= length l)%nat -> bytes_ok l -> le32 (u32 l o) = window o 4 l.
Proof.
  intros l o L B. unfold u32. assert (W: length (window o 4 l) = 4%nat) by (rewrite length_window; lia).
  assert (BW: bytes_ok (window o 4 l)) by (unfold window, bytes_ok in *; apply Forall_firstn; now apply Forall_skipn).
  destruct (window o 4 l) as [|a [|b [|e [|f [|? ?]]]]]; try discriminate W.
  repeat match goal with H : bytes_ok (_ :: _) |- _ => inversion H as [|? ? ? ?]; subst; clear H | H : Forall byte_ok (_ :: _) |- _ => inversion H as [|? ? ? ?]; subst; clear H end.
  unfold byte_ok in *. cbn [le_value]. unfold le32.
  set (v := a + 256 * (b + 256 * (e + 256 * (f + 256 * 0)))).
  assert (V1: v / 256 = b + 256 * (e + 256 * f)).
  { symmetry. apply (N.div_unique v 256 _ a); subst v; lia. }
  assert (V2: v / 65536 = e + 256 * f).
  { symmetry. apply (N.div_unique v 65536 _ (a + 256 * b)); subst v; lia. }
  assert (V3: v / 16777216 = f).
  { symmetry. apply (N.div_unique v 16777216 _ (a + 256 * b + 65536 * e)); subst v; lia. }
  repeat f_equal.
  - symmetry. apply (N.mod_unique v 256 (b + 256 * (e + 256 * f))); subst v; lia.
  - rewrite V1. symmetry. apply (N.mod_unique _ 256 (e + 256 * f)); lia.
  - rewrite V2. symmetry. apply (N.mod_unique _ 256 f); lia.
  - rewrite V3. apply N.mod_small. lia.
Qed.

Lemma enc_parse_entry : forall l, length l = 8%nat -> bytes_ok l -> enc_entry (parse_entry l) = l.
Proof.
  intros l L B. unfold enc_entry, parse_entry. cbn [e_type e_parent e_format e_hash e_offset e_length].
  rewrite !le16_u16 by (auto; lia). do 9 (destruct l as [|? l]; [try discriminate L; try reflexivity|]). discriminate L.
Qed.

Lemma enc_parse_header : forall l, length l = 12%nat -> bytes_ok l -> enc_header (parse_header l) (u8 l 11) = l.
Proof.
  intros l L B. unfold enc_header, parse_header. cbn [h_length h_magic h_id h_sig h_sigtype].
  rewrite !le16_u16, le32_u32 by (auto; lia). do 13 (destruct l as [|? l]; [try discriminate L; try reflexivity|]). discriminate L.
Qed.

Lemma length_enc_entry : forall e, length (enc_entry e) = 8%nat.
Proof. reflexivity. Qed.
Lemma length_enc_header : forall h r, length (enc_header h r) = 12%nat.
Proof. reflexivity. Qed.
Lemma length_enc_entries : forall l, length (flat_map enc_entry l) = (8 * length l)%nat.
Proof. induction l as [|e l IH]; [reflexivity|]. cbn [flat_map]. rewrite app_length, IH, length_enc_entry. cbn [length]. lia. Qed.
Lemma length_concat_all : forall (hl : nat) (l : list (list N)), Forall (fun h => length h = hl) l -> length (concat l) = (hl * length l)%nat.
Proof. induction l as [|h l IH]; intros F; [cbn; lia|]. inversion F; subst. cbn [concat length]. rewrite app_length, IH by auto. lia. Qed.

(** Bytes cut into pieces of the same length. *)
Fixpoint pieces (hl n : nat) (l : list N) : list (list N) :=
  match n with O => [] | S k => firstn hl l :: pieces hl k (skipn hl l) end.
Lemma pieces_spec : forall hl n l, length l = (hl * n)%nat ->
  concat (pieces hl n l) = l /\ length (pieces hl n l) = n /\ Forall (fun h => length h = hl) (pieces hl n l).
Proof.
  induction n as [|n IH]; intros l L; cbn [pieces concat length].
  - split; [|auto]. destruct l; [reflexivity|]. cbn in L. lia.
  - destruct (IH (skipn hl l)) as (A & B & C); [rewrite skipn_length; nia|].
    split; [rewrite A; apply firstn_skipn|]. split; [now rewrite B|]. constructor; [rewrite firstn_length; nia|auto].
Qed.

(** * Steps *)

Lemma bind_ok : forall A B (f : M A) (g : A -> M B) s s' b, bind f g s = (s', Ok b) ->
  exists s1 a, f s = (s1, Ok a) /\ g a s1 = (s', Ok b).
Proof. intros A B f g s s' b H. unfold bind in H. destruct (f s) as [s1 [a|e]]; [eauto|discriminate]. Qed.

Lemma check_ok : forall b e s s' x, check b e s = (s', Ok x) -> b = true /\ s' = s.
Proof. intros b e s s' x H. unfold check, ret, fail in H. destruct b; [|discriminate]. injection H as <- _. auto. Qed.

Lemma ret_ok : forall A (a : A) s s' x, ret a s = (s', Ok x) -> s' = s /\ x = a.
Proof. intros A a s s' x H. unfold ret in H. now injection H as <- <-. Qed.

Ltac steps := repeat match goal with
  | H : bind _ _ _ = (_, Ok _) |- _ => let s := fresh "s" in let a := fresh "x" in let P := fresh "P" in let Q := fresh "Q" in
      apply bind_ok in H; destruct H as (s & a & P & Q)
  | H : check _ _ _ = (_, Ok _) |- _ => let P := fresh "C" in apply check_ok in H; destruct H as (P & ->)
  | H : ret _ _ = (_, Ok _) |- _ => apply ret_ok in H; destruct H as (-> & ->)
  | H : fail _ _ = (_, Ok _) |- _ => discriminate H
  end.

Section Steps.
Variable c : mcfg.
Variable rd : nat -> N -> nat -> option (list N).
Hypothesis Hrd : flash_ok rd.

Lemma read_at_nil : forall a, read_at rd a [].
Proof. intros a i L. cbn in L. lia. Qed.

Lemma read_at_app : forall a x y, read_at rd a x -> read_at rd (a + N.of_nat (length x)) y -> read_at rd a (x ++ y).
Proof.
  intros a x y X Y i L. rewrite app_length in L. destruct (Nat.ltb_spec i (length x)) as [I0|I0].
  - rewrite app_nth1 by auto. exact (X i I0).
  - rewrite app_nth2 by auto. destruct (Y (i - length x)%nat ltac:(lia)) as (k & b & n & d & R & B & E).
    exists k, b, n, d. replace (a + N.of_nat (length x) + N.of_nat (i - length x)) with (a + N.of_nat i) in * by lia. auto.
Qed.

Lemma read_at_one : forall k a n l, rd k a n = Some l -> read_at rd a l.
Proof.
  intros k a n l R i L. destruct (Hrd _ _ _ _ R) as (E & _). exists k, a, n, l. split; [auto|]. split; [lia|]. f_equal. lia.
Qed.

Lemma flash_read_ok : forall a n s s' l, flash_read c rd a n s = (s', Ok l) ->
  snd s' = snd s /\ N.of_nat (length l) = n /\ bytes_ok l /\ read_at rd a l /\ a + n <= c_size c.
Proof.
  intros a n s s' l H. unfold flash_read in H. injection H as <- H. destruct (N.ltb_spec (c_size c) (a + n)); [discriminate|].
  destruct (rd (fst s) a (N.to_nat n)) as [d|] eqn:R; [|discriminate]. injection H as <-.
  destruct (Hrd _ _ _ _ R). split; [auto|]. split; [lia|]. split; [auto|]. split; [eapply read_at_one; eauto|auto].
Qed.

Lemma update_ok : forall l s s' x, update l s = (s', Ok x) -> snd s' = snd s ++ l.
Proof. intros l s s' x H. unfold update in H. now injection H as <- _. Qed.

Lemma read_hash_ok : forall a n s s' l, read_hash c rd a n s = (s', Ok l) ->
  snd s' = snd s ++ l /\ N.of_nat (length l) = n /\ bytes_ok l /\ read_at rd a l /\ (n <> 0 -> a + n <= c_size c).
Proof.
  intros a n s s' l H. unfold read_hash in H. destruct (N.eqb_spec n 0) as [->|Z].
  - steps. rewrite app_nil_r. split; [auto|]. split; [auto|]. split; [constructor|]. split; [apply read_at_nil|tauto].
  - steps. apply flash_read_ok in P. destruct P as (P1 & P2 & P3 & P4 & P5). apply update_ok in P0.
    split; [congruence|]. auto.
Qed.

Lemma hash_blocks_ok : forall fuel a n s s' x, (n <= fuel)%nat -> hash_blocks c rd fuel a n s = (s', Ok x) ->
  exists l, snd s' = snd s ++ l /\ length l = n /\ bytes_ok l /\ read_at rd a l.
Proof.
  induction fuel as [|f IH]; intros a n s s' x F H; cbn [hash_blocks] in H.
  - steps. exists []. rewrite app_nil_r. split; [auto|]. split; [cbn; lia|]. split; [constructor|apply read_at_nil].
  - destruct n as [|n]; [steps; exists []; rewrite app_nil_r; split; [auto|]; split; [auto|]; split; [constructor|apply read_at_nil]|].
    cbv zeta in H. steps. apply flash_read_ok in P. destruct P as (P1 & P2 & P3 & P4 & P5). apply update_ok in P0.
    apply IH in Q0; [|unfold BLOCK; lia]. destruct Q0 as (l & L1 & L2 & L3 & L4).
    exists (x0 ++ l). rewrite L1, P0, P1, app_assoc. split; [auto|]. split; [rewrite app_length; unfold BLOCK in *; lia|].
    split; [now apply bytes_ok_app|]. apply read_at_app; [auto|]. now rewrite P2.
Qed.

Lemma hash_range_ok : forall a n s s' x, hash_range c rd a n s = (s', Ok x) ->
  exists l, snd s' = snd s ++ l /\ N.of_nat (length l) = n /\ bytes_ok l /\ read_at rd a l /\ (n <> 0 -> a + n <= c_size c).
Proof.
  intros a n s s' x H. unfold hash_range in H. destruct (N.eqb_spec n 0) as [->|Z].
  - steps. exists []. rewrite app_nil_r. split; [auto|]. split; [auto|]. split; [constructor|]. split; [apply read_at_nil|tauto].
  - destruct (N.ltb_spec (c_size c) (a + n)); [steps|]. apply hash_blocks_ok in H; [|lia]. destruct H as (l & L1 & L2 & L3 & L4).
    exists l. split; [auto|]. split; [lia|]. auto.
Qed.

Lemma engine_ok : forall eng s s' x, engine eng s = (s', Ok x) -> snd s' = snd s.
Proof. intros eng s s' x H. unfold engine in H. now injection H as <- _. Qed.

Lemma start_hash_ok : forall eng s s' x, start_hash eng s = (s', Ok x) -> snd s' = [].
Proof. intros eng s s' x H. unfold start_hash in H. steps. now injection Q as <- _. Qed.

Lemma hashed_ok : forall s s' x, hashed s = (s', Ok x) -> s' = s /\ x = snd s.
Proof. intros s s' x H. unfold hashed in H. now injection H as <- <-. Qed.

(** A range that goes backwards is never hashed: it would leave the device. *)
Lemma forward : forall a b, a < 2 ^ 32 -> b < 2 ^ 32 -> c_size c < 2 ^ 32 ->
  (sub32 a b <> 0 -> b + sub32 a b <= c_size c) -> b <= a /\ b + sub32 a b = a.
Proof.
  intros a b A B S H. unfold sub32 in *. rewrite (N.mod_small b) in * by auto.
  destruct (N.le_gt_cases b a) as [L|L].
  - split; [auto|]. replace (a + 2 ^ 32 - b) with (a - b + 1 * 2 ^ 32) by lia. rewrite N.mod_add by lia. rewrite N.mod_small by lia. lia.
  - exfalso. replace (a + 2 ^ 32 - b) with (2 ^ 32 - (b - a)) in * by lia. rewrite N.mod_small in H by lia. assert (b + (2 ^ 32 - (b - a)) <= c_size c) by (apply H; lia). lia.
Qed.
End Steps.
