(** Manifests: what a successful search has found. *)
From Coq Require Import List NArith Lia Bool Arith.
From Coq Require Import ZifyBool ZifyNat ZifyN.
From Verif Require Import Base Pcr_Proofs Manifest_Model Manifest_Spec Manifest_Proofs Manifest_Verify_Proofs Manifest_Total_Proofs.
Import ListNotations.
Local Open Scope N_scope.

(** * The search through tables that are given only by their hashes *)

(** [table] is a table that could have been read; what it is depends on nothing but its hash. *)
Definition good_table (ty hl : N) (t : toc) : Prop :=
  tc_type t + 1 = ty /\ Forall (fun h => N.of_nat (length h) = hl) (tc_hashes t) /\ Forall entry_fits (tc_entries t) /\ (length (tc_entries t) <= 255)%nat.

Inductive found (src : list N -> Prop) (hash : N -> list N -> list N) (ty hl : N) (types : list N) (start parent : N) :
  list N -> N -> tentry -> N -> option (list N) -> Prop :=
| found_here : forall want base t i e,
    src (enc_toc t) -> hash ty (enc_toc t) = want -> good_table ty hl t ->
    nth_error (tc_entries t) i = Some e -> (start <= base + N.of_nat i \/ (i = 254%nat /\ start >= base + 255)) -> matches types e ->
    (parent = 255 \/ e_parent e <> 255) ->
    (forall j x, nth_error (tc_entries t) j = Some x -> (j < i)%nat -> start <= base + N.of_nat j -> skipped types parent x) ->
    found src hash ty hl types start parent want base e (base + N.of_nat i) (hash_in t e)
| found_later : forall want base t x h e index eh,
    src (enc_toc t) -> hash ty (enc_toc t) = want -> good_table ty hl t ->
    nth_error (tc_entries t) 254 = Some x -> e_type x = 1 -> length (tc_entries t) = 255%nat ->
    (forall j y, nth_error (tc_entries t) j = Some y -> (j < 254)%nat -> start <= base + N.of_nat j -> skipped types parent y) ->
    hash_in t x = Some h ->
    found src hash ty hl types start parent h (base + 255) e index eh ->
    found src hash ty hl types start parent want base e index eh.

Lemma enc_entry_inj : forall a b, entry_fits a -> entry_fits b -> enc_entry a = enc_entry b -> a = b.
Proof. intros a b A B E. rewrite <- (parse_enc_entry a A), <- (parse_enc_entry b B). now rewrite E. Qed.

Lemma app_len_inj : forall (A : Type) (a b x y : list A), length a = length b -> a ++ x = b ++ y -> a = b /\ x = y.
Proof.
  induction a as [|h a IH]; intros b x y L E; destruct b; try discriminate L; [auto|]. cbn in *. injection E as -> E. injection L as L.
  destruct (IH _ _ _ L E) as (-> & ->). auto.
Qed.

Lemma enc_toc_inj : forall ty hl a b, good_table ty hl a -> good_table ty hl b -> enc_toc a = enc_toc b ->
  tc_entries a = tc_entries b /\ tc_hashes a = tc_hashes b.
Proof.
  intros ty hl a b (_ & A2 & A3 & _) (_ & B2 & B3 & _) E. rewrite !enc_toc_parts in E. unfold enc_toc_header in E. cbn [app] in E. injection E as E1 E2 _ _ E.
  apply Nat2N.inj in E1, E2. apply app_len_inj in E; [|rewrite !length_enc_entries; lia]. destruct E as (E & F). split.
  - clear - A3 B3 E1 E. revert A3 E1 E. generalize dependent (tc_entries b). induction (tc_entries a) as [|x l IH]; intros l2 B A L E; destruct l2 as [|y l2]; try discriminate L; [auto|].
    cbn [flat_map] in E. apply app_len_inj in E; [|reflexivity]. destruct E as (E1 & E2). inversion A; inversion B; subst. f_equal; [now apply enc_entry_inj|]. apply IH; auto.
  - clear - A2 B2 E2 F. revert A2 E2 F. generalize dependent (tc_hashes b). induction (tc_hashes a) as [|x l IH]; intros l2 B A L E; destruct l2 as [|y l2]; try discriminate L; [auto|].
    cbn [concat] in E. inversion A; inversion B; subst. apply app_len_inj in E; [|lia]. destruct E as (-> & E). f_equal. apply IH; auto.
Qed.

(** What has been found is what the tables with the right hashes contain. *)
Lemma found_linked : forall src hash ty hl types start parent want base e index eh,
  found src hash ty hl types start parent want base e index eh ->
  forall t ts, linked hash ty want t ts -> Forall (good_table ty hl) (t :: ts) ->
  start < base + N.of_nat (entries_of t ts) ->
  (exists t' x, In t' (t :: ts) /\ x <> enc_toc t' /\ hash ty x = hash ty (enc_toc t') /\ src x) \/
  (base <= index /\ nth_error (flat_map tc_entries (t :: ts)) (N.to_nat (index - base)) = Some e /\ start <= index /\ matches types e /\
   (parent = 255 \/ e_parent e <> 255) /\ hash_of (t :: ts) (N.to_nat (index - base)) = eh /\
   forall j x, start <= base + N.of_nat j < index -> nth_error (flat_map tc_entries (t :: ts)) j = Some x -> skipped types parent x).
Proof.
  intros src hash ty hl types start parent want base e index eh F.
  assert (EQ: forall (t : toc) t' w, src (enc_toc t) -> hash ty (enc_toc t) = w -> hash ty (enc_toc t') = w -> good_table ty hl t -> good_table ty hl t' ->
    (exists x, x <> enc_toc t' /\ hash ty x = hash ty (enc_toc t') /\ src x) \/ (tc_entries t = tc_entries t' /\ tc_hashes t = tc_hashes t')).
  { intros t t' w SR A B GA GB. destruct (list_eq_dec N.eq_dec (enc_toc t) (enc_toc t')) as [E|E]; [right; eapply enc_toc_inj; eauto|left].
    exists (enc_toc t). split; [auto|]. split; [congruence|auto]. }
  induction F as [want base t i e SR HT G N0 ST MA PA SK|want base t x h e index eh SR HT G NX TX LX SK HX F IH]; intros t' ts L GT B.
  - assert (HT': hash ty (enc_toc t') = want) by (inversion L; auto).
    inversion GT as [|? ? G' GTS]; subst. destruct (EQ t t' _ SR eq_refl HT' G G') as [(z & Z)|(E1 & E2)]; [left; exists t', z; split; [now left|exact Z]|right].
    rewrite E1 in *. replace (base + N.of_nat i - base) with (N.of_nat i) by lia. rewrite Nat2N.id.
    assert (LI: (i < length (tc_entries t'))%nat) by (apply nth_error_Some; congruence).
    split; [lia|]. cbn [flat_map]. split; [rewrite nth_error_app1; auto|].
    assert (STI: start <= base + N.of_nat i).
    { destruct ST as [?|(-> & ST)]; [auto|]. exfalso. destruct G' as (_ & _ & _ & GL). destruct MA as (NT & _).
      inversion L as [? ? ? NE|? ? y ? ? ? ? EX]; subst; [unfold entries_of, list_sum in B; cbn [map fold_right] in B; lia|].
      destruct (extension_spec _ _ EX) as (TY & n & LN & NN). assert (n = 254%nat) by lia. subst n. congruence. }
    split; [auto|]. split; [auto|]. split; [auto|]. cbn [hash_of]. rewrite N0. unfold hash_in. rewrite E2.
    split; [reflexivity|]. intros j y J NJ. rewrite nth_error_app1 in NJ by lia. eapply SK; eauto; lia.
  - assert (HT': hash ty (enc_toc t') = want) by (inversion L; auto).
    inversion GT as [|? ? G' GTS]; subst. destruct (EQ t t' _ SR eq_refl HT' G G') as [(z & Z)|(E1 & E2)]; [left; exists t', z; split; [now left|exact Z]|].
    rewrite E1 in *. inversion L as [? ? ? NE|? ? y h' t2 ts2 ? EX HH L2]; subst.
    { exfalso. unfold extension in NE. assert (LL: length (tc_entries t') = S 254) by lia. pose proof (last_nth _ _ x 254 LL) as Q. rewrite NX in Q. injection Q as Q.
      destruct (tc_entries t') as [|z l] using rev_ind; [discriminate|]. rewrite rev_app_distr in NE. cbn in NE. rewrite last_last in Q. subst z. now rewrite TX in NE. }
    destruct (extension_spec _ _ EX) as (TY & n & LN & NN). assert (n = 254%nat) by lia. subst n. assert (y = x) by congruence. subst y.
    unfold hash_in in HX, HH. rewrite E2 in HX. assert (h' = h) by congruence. subst h'.
    destruct (IH _ _ L2 GTS) as [(t3 & z & Z1 & Z2)|(I1 & I2 & I3 & I4 & I5 & I6 & I7)]; [unfold entries_of, list_sum in *; cbn [map fold_right] in B; lia|left; exists t3, z; split; [now right|exact Z2]|right].
    split; [lia|]. cbn [flat_map]. rewrite nth_error_app2 by lia.
    replace (N.to_nat (index - base) - length (tc_entries t'))%nat with (N.to_nat (index - (base + 255))) by lia.
    split; [exact I2|]. split; [auto|]. split; [auto|]. split; [auto|].
    split. { cbn [hash_of]. replace (nth_error (tc_entries t') (N.to_nat (index - base))) with (@None tentry) by (symmetry; apply nth_error_None; lia).
      replace (N.to_nat (index - base) - length (tc_entries t'))%nat with (N.to_nat (index - (base + 255))) by lia. exact I6. }
    intros j z J NJ. destruct (Nat.lt_ge_cases j 255) as [JL|JL].
    + rewrite nth_error_app1 in NJ by lia. destruct (Nat.eq_dec j 254) as [->|JN].
      * assert (z = x) by congruence. subst z. split; [intros (Q & _); contradiction|intros Q; contradiction].
      * eapply SK; eauto; lia.
    + rewrite nth_error_app2 in NJ by lia. rewrite LX in NJ. apply (I7 (j - 255)%nat z); [lia|exact NJ].
Qed.

(** * The search *)

(** Any bytes are entries. *)
Fixpoint split8 (n : nat) (l : list N) : list tentry :=
  match n with O => [] | S k => parse_entry (firstn 8 l) :: split8 k (skipn 8 l) end.
Lemma split8_spec : forall n l, length l = (8 * n)%nat -> bytes_ok l ->
  flat_map enc_entry (split8 n l) = l /\ length (split8 n l) = n /\ Forall entry_fits (split8 n l).
Proof.
  induction n as [|n IH]; intros l L B; cbn [split8 flat_map length].
  - destruct l; [auto|discriminate].
  - assert (B1: bytes_ok (firstn 8 l) /\ bytes_ok (skipn 8 l)) by (unfold bytes_ok in *; split; [now apply Forall_firstn|now apply Forall_skipn]).
    destruct B1 as (B1 & B2). destruct (IH (skipn 8 l)) as (I1 & I2 & I3); [rewrite skipn_length; lia|auto|].
    rewrite I1, I2, enc_parse_entry by (auto; rewrite firstn_length; lia). split; [apply firstn_skipn|]. split; [auto|]. constructor; [now apply parse_entry_small|auto].
Qed.

Lemma pieces_nth : forall hl n i l, (i < n)%nat -> nth_error (pieces hl n l) i = Some (window (i * hl) hl l).
Proof.
  induction n as [|n IH]; intros i l L; [lia|]. cbn [pieces]. destruct i as [|i]; cbn [nth_error]; [reflexivity|].
  rewrite IH by lia. f_equal. unfold window. f_equal. cbn [Nat.mul]. clear. generalize (i * hl)%nat. intros k.
  revert l. induction hl as [|hl IHh]; intros l; [reflexivity|]. destruct l; [cbn; now rewrite !skipn_nil|]. cbn [skipn Nat.add]. apply IHh.
Qed.

(** A table from its parts. *)
Lemma whole_table : forall th ty hl A es B, length th = 4%nat -> bytes_ok th -> bytes_ok A -> bytes_ok B -> Forall entry_fits es ->
  convert_type (t_type (parse_toc th)) = ty -> forall local, length A = (8 * local)%nat -> (local + length es <= N.to_nat (t_entries (parse_toc th)))%nat ->
  N.of_nat (length A + 8 * length es + length B) = 8 * t_entries (parse_toc th) + hl * t_hashes (parse_toc th) ->
  exists t, enc_toc t = th ++ A ++ flat_map enc_entry es ++ B /\ good_table ty hl t /\
    (exists P Q, tc_entries t = P ++ es ++ Q /\ length P = local) /\ N.of_nat (length (tc_entries t)) = t_entries (parse_toc th) /\
    N.of_nat (length (tc_hashes t)) = t_hashes (parse_toc th) /\
    forall i, (i < length (tc_hashes t))%nat ->
      nth_error (tc_hashes t) i = Some (window (8 * (N.to_nat (t_entries (parse_toc th)) - local - length es) + i * N.to_nat hl) (N.to_nat hl) B).
Proof.
  intros th ty hl A es B L4 BT BA BB F TY local LA LE LB.
  set (ne := N.to_nat (t_entries (parse_toc th))) in *. set (nh := N.to_nat (t_hashes (parse_toc th))) in *.
  set (nq := (ne - local - length es)%nat).
  assert (LB': (length B = 8 * nq + N.to_nat hl * nh)%nat) by (unfold nq; lia).
  destruct (split8_spec local A LA BA) as (P1 & P2 & P3).
  assert (BQ: bytes_ok (firstn (8 * nq) B) /\ bytes_ok (skipn (8 * nq) B)) by (unfold bytes_ok in *; split; [now apply Forall_firstn|now apply Forall_skipn]).
  destruct BQ as (BQ1 & BQ2).
  destruct (split8_spec nq (firstn (8 * nq) B)) as (Q1 & Q2 & Q3); [rewrite firstn_length; lia|auto|].
  destruct (table_ok th (split8 local A ++ es ++ split8 nq (firstn (8 * nq) B)) (skipn (8 * nq) B) hl L4 BT) as (t & T1 & T2 & T3 & T4 & T5 & T6 & T7).
  { rewrite !app_length, P2, Q2. fold ne. unfold nq. lia. }
  { rewrite skipn_length. lia. }
  exists t. split. { rewrite T1, !flat_map_app, P1, Q1, <- !app_assoc. f_equal. f_equal. f_equal. apply firstn_skipn. }
  split. { split; [rewrite T5; exact TY|]. split; [auto|]. rewrite T2. split; [rewrite !Forall_app; auto|]. rewrite !app_length, P2, Q2. unfold nq. lia. }
  split. { exists (split8 local A), (split8 nq (firstn (8 * nq) B)). auto. }
  split. { rewrite T2, !app_length, P2, Q2. unfold nq. lia. }
  split; [auto|]. intros i I0.
  assert (T1': concat (tc_hashes t) = skipn (8 * nq) B).
  { rewrite enc_toc_parts, T2 in T1. apply app_len_inj in T1; [|rewrite L4; reflexivity]. destruct T1 as (_ & T1).
    apply app_len_inj in T1; [tauto|reflexivity]. }
  clear - I0 T4 T1' nq. fold nq. replace (window (8 * nq + i * N.to_nat hl) (N.to_nat hl) B) with (window (i * N.to_nat hl) (N.to_nat hl) (skipn (8 * nq) B)).
  - rewrite <- T1'. clear - I0 T4. revert i I0. induction (tc_hashes t) as [|h l IH]; intros i I0; [cbn in I0; lia|]. inversion T4 as [|? ? T4a T4b]; subst. destruct i as [|i]; cbn [nth_error concat].
    + f_equal. unfold window. cbn [Nat.mul skipn]. rewrite Nat2N.id, firstn_app, Nat.sub_diag, firstn_all, firstn_O. now rewrite app_nil_r.
    + cbn [length] in I0. rewrite (IH T4b i ltac:(lia)). unfold window. rewrite !Nat2N.id. cbn [Nat.mul]. rewrite skipn_app, (skipn_all2 h) by lia.
      rewrite app_nil_l. replace (length h + i * length h - length h)%nat with (i * length h)%nat by lia. reflexivity.
  - unfold window. f_equal. generalize (8 * nq)%nat. intros k. generalize (i * N.to_nat hl)%nat. intros q. clear. revert B. induction k as [|k IH]; intros B; [reflexivity|].
    destruct B; [now rewrite !skipn_nil|]. cbn [skipn Nat.add]. apply IH.
Qed.

Section Search.
Variable c : mcfg.
Variable rd : nat -> N -> nat -> option (list N).
Hypothesis Hrd : flash_ok rd.

Lemma scan_ok : forall n local next t ext types parent lst s s' local' next' e,
  scan_entries c rd n local next t ext types parent lst s = (s', Ok (local', next', e)) ->
  exists es, (length es <= n)%nat /\ (snd s' = snd s ++ flat_map enc_entry es /\ read_at rd next (flat_map enc_entry es)) /\ Forall entry_fits es /\
    next' = next + 8 * N.of_nat (length es) /\ local' = local + N.of_nat (length es) /\
    ((exists pre, es = pre ++ [e] /\ matches types e /\ (parent = 255 \/ e_parent e <> 255) /\ Forall (skipped types parent) pre) \/
     (length es = n /\ e = last es lst /\ Forall (skipped types parent) es)) /\
    (forall j x, nth_error es j = Some x -> e_type x = 1 -> local + N.of_nat j = 254 /\ e_hash x < t_hashes t).
Proof.
  induction n as [|n IH]; intros local next t ext types parent lst s s' local' next' e H; cbn [scan_entries] in H.
  - apply ret_ok in H. destruct H as (-> & H). injection H as -> -> ->. exists []. cbn [length flat_map]. rewrite app_nil_r.
    split; [auto|]. split; [split; [auto|apply read_at_nil]|]. split; [constructor|]. split; [lia|]. split; [lia|]. split; [right; auto|]. intros j x N0. destruct j; discriminate.
  - apply bind_ok in H. destruct H as (s1 & l & R & H). apply (read_hash_ok c rd Hrd) in R. destruct R as (R1 & R2 & R3 & R4 & _). cbv zeta in H.
    assert (L8: length l = 8%nat) by (unfold ENTRY_LEN in R2; lia). pose proof (parse_entry_small l R3) as FI. set (x := parse_entry l) in *.
    assert (EX: enc_entry x = l) by now apply enc_parse_entry.
    unfold T_EXTENSION, EXTENSION_ENTRY, NO_PARENT in H.
    assert (GO: forall s2, snd s2 = snd s1 -> scan_entries c rd n (local + 1) (next + ENTRY_LEN) t ext types parent x s2 = (s', Ok (local', next', e)) -> skipped types parent x ->
      (e_type x = 1 -> local = 254 /\ e_hash x < t_hashes t) ->
      exists es, (length es <= S n)%nat /\ (snd s' = snd s ++ flat_map enc_entry es /\ read_at rd next (flat_map enc_entry es)) /\ Forall entry_fits es /\
    next' = next + 8 * N.of_nat (length es) /\ local' = local + N.of_nat (length es) /\
    ((exists pre, es = pre ++ [e] /\ matches types e /\ (parent = 255 \/ e_parent e <> 255) /\ Forall (skipped types parent) pre) \/
     (length es = S n /\ e = last es lst /\ Forall (skipped types parent) es)) /\
    (forall j x, nth_error es j = Some x -> e_type x = 1 -> local + N.of_nat j = 254 /\ e_hash x < t_hashes t)).
    { intros s2 E2 G SK XT. apply IH in G. destruct G as (es & G1 & (G2 & GR) & G3 & G4 & G5 & G6 & G7). exists (x :: es). cbn [length flat_map].
      split; [lia|]. split; [split; [rewrite G2, E2, R1, EX; now rewrite <- app_assoc|rewrite EX; apply read_at_app; [exact R4|rewrite L8; exact GR]]|]. split; [now constructor|]. split; [rewrite G4; unfold ENTRY_LEN; lia|]. split; [lia|].
      split. { destruct G6 as [(pre & -> & MA & PA & SP)|(LL & -> & SP)].
        - left. exists (x :: pre). split; [reflexivity|]. split; [auto|]. split; [auto|]. now constructor.
        - right. split; [lia|]. split; [|now constructor]. clear. revert lst x. induction es as [|y es IH]; intros lst x; [reflexivity|]. cbn [last] in *. destruct es; [reflexivity|]. apply IH. }
      intros [|j] y NJ TY; cbn [nth_error] in NJ; [injection NJ as <-; destruct (XT TY); split; [lia|auto]|]. destruct (G7 _ _ NJ TY). split; [lia|auto]. }
    destruct (N.eqb_spec (e_type x) 1) as [T|T].
    + apply bind_ok in H. destruct H as (s2 & ? & K & H). apply check_ok in K. destruct K as (K & ->).
      apply (GO s1 eq_refl H); [split; [intros (Q & _); contradiction|intros Q; contradiction]|]. intros _. lia.
    + apply bind_ok in H. destruct H as (s2 & ? & K & H). apply check_ok in K. destruct K as (K & ->).
      destruct (in_types types (e_type x)) eqn:IN.
      * apply ret_ok in H. destruct H as (-> & H). injection H as -> -> ->. exists [x]. cbn [length flat_map]. rewrite app_nil_r, EX.
        split; [lia|]. split; [split; auto|]. split; [now constructor|]. split; [reflexivity|]. split; [reflexivity|].
        split. { left. exists []. split; [reflexivity|]. split; [|split; [lia|constructor]]. split; [auto|]. apply existsb_exists in IN. destruct IN as (y & I0 & E). apply N.eqb_eq in E. now subst y. }
        intros [|j] y NJ TY; cbn [nth_error] in NJ; [injection NJ as <-; contradiction|destruct j; discriminate].
      * apply (GO s1 eq_refl H); [|contradiction]. split; [|lia]. intros (_ & Q). assert (in_types types (e_type x) = true); [|congruence].
        apply existsb_exists. exists (e_type x). split; [auto|apply N.eqb_refl].
Qed.

Hypothesis Hsize : c_size c < 2 ^ 32.
Variable hash : N -> list N -> list N.
Variable eng : nat -> bool.

Lemma sub32_dist : forall a n, n < 2 ^ 32 -> sub32 (a + n) a = n.
Proof.
  intros a n H. unfold sub32. set (d := 2 ^ 32) in *. assert (d <> 0) by (subst d; lia).
  pose proof (N.div_mod a d H0) as D. pose proof (N.mod_lt a d H0) as ML.
  replace (a + n + d - a mod d) with (n + (a / d + 1) * d) by lia. rewrite N.mod_add by auto. now apply N.mod_small.
Qed.

Lemma matches_in : forall types e, matches types e -> in_types types (e_type e) = true.
Proof. intros types e (_ & H). apply existsb_exists. exists (e_type e). split; [auto|apply N.eqb_refl]. Qed.
Lemma in_matches : forall types e, e_type e <> 1 -> in_types types (e_type e) = true -> matches types e.
Proof. intros types e T H. split; [auto|]. apply existsb_exists in H. destruct H as (y & I0 & E). apply N.eqb_eq in E. now subst y. Qed.

Lemma find_entry_ok : forall fuel m types start parent next index want s s' e idx eh, 
  s_hl m < 2 ^ 16 ->
  find_entry hash c rd eng fuel m types start parent next index want s = (s', Ok (e, idx, eh)) ->
  found (read_parts rd) hash (s_type m) (s_hl m) types start parent want index e idx eh.
Proof.
  induction fuel as [|f IH]; intros m types start parent next index want s s' e idx eh HL H; cbn [find_entry] in H; [discriminate|].
  cbv zeta in H. unfold TOC_HEADER, ENTRY_LEN in H.
  apply bind_ok in H. destruct H as (s1 & ? & ST & H). apply start_hash_ok in ST.
  apply bind_ok in H. destruct H as (s2 & th & R & H). apply (read_hash_ok c rd Hrd) in R. destruct R as (R1 & R2 & R3 & R4 & _).
  apply bind_ok in H. destruct H as (s3 & ? & K & H). apply check_ok in K. destruct K as (K & ->). apply N.eqb_eq in K.
  set (ne := t_entries (parse_toc th)) in *. set (nh := t_hashes (parse_toc th)) in *.
  assert (NE: ne < 256 /\ nh < 256) by (unfold ne, nh, parse_toc; cbn [t_entries t_hashes]; auto using u8_small).
  apply bind_ok in H. destruct H as (s4 & local & LO & H).
  assert (LC: s4 = s2 /\ local < ne /\ ((start <= index + local /\ (start <= index -> local = 0) /\ (index < start -> index + local = start)) \/ (local = 254 /\ ne = 255 /\ index + 255 <= start))).
  { unfold MAX_ENTRIES, EXTENSION_ENTRY in LO. destruct (N.ltb_spec index start).
    - destruct (N.leb_spec ne (start - index)); [|apply ret_ok in LO; destruct LO as (-> & ->); split; [auto|lia]].
      destruct (N.eqb_spec ne 255); [|discriminate]. apply ret_ok in LO. destruct LO as (-> & ->). split; [auto|lia].
    - destruct (N.leb_spec ne 0); [|apply ret_ok in LO; destruct LO as (-> & ->); split; [auto|lia]].
      destruct (N.eqb_spec ne 255); [|discriminate]. lia. }
  clear LO. destruct LC as (-> & LL & LC).
  apply bind_ok in H. destruct H as (s5 & ? & HA & H). apply (hash_range_ok c rd Hrd) in HA. destruct HA as (A & A1 & A2 & A3 & A4 & _).
  apply bind_ok in H. destruct H as (s6 & [[local' n2] e0] & SC & H).
  apply scan_ok in SC. destruct SC as (es & E1 & (E2 & ER) & E3 & E4 & E5 & E6 & E7).
  apply bind_ok in H. destruct H as (s7 & ? & CK & H). apply check_ok in CK. destruct CK as (CK & ->).
  apply bind_ok in H. destruct H as (s8 & [n3 eh0] & Y & H).
  apply bind_ok in H. destruct H as (s9 & ? & HT & H). apply (hash_range_ok c rd Hrd) in HT. destruct HT as (tl & T1 & T2 & T3 & T4 & _).
  apply bind_ok in H. destruct H as (s10 & ? & EN & H). apply engine_ok in EN.
  apply bind_ok in H. destruct H as (s11 & d & HD & H). apply hashed_ok in HD. destruct HD as (-> & ->).
  apply bind_ok in H. destruct H as (s12 & ? & CW & H). apply check_ok in CW. destruct CW as (CW & ->).
  destruct (list_eq_dec N.eq_dec (hash (s_type m) (snd s10)) want) as [CW'|]; [|discriminate]. clear CW.
  (* what follows the entries that were looked at *)
  assert (BB: exists B, (snd s9 = snd s6 ++ B /\ read_at rd n2 B) /\ bytes_ok B /\ N.of_nat (length B) = 8 * (ne - local') + s_hl m * nh /\
    match eh0 with
    | Some h => e_hash e0 < nh /\ h = window (N.to_nat (8 * (ne - local') + s_hl m * e_hash e0)) (N.to_nat (s_hl m)) B
    | None => nh <= e_hash e0
    end).
  { destruct (N.ltb_spec (e_hash e0) nh) as [EH|EH].
    - apply bind_ok in Y. destruct Y as (s13 & ? & HM & Y). apply (hash_range_ok c rd Hrd) in HM. destruct HM as (mid & M1 & M2 & M3 & M4 & _).
      apply bind_ok in Y. destruct Y as (s14 & h & RH & Y). apply (read_hash_ok c rd Hrd) in RH. destruct RH as (H1 & H2 & H3 & H4 & _).
      apply ret_ok in Y. destruct Y as (-> & Y). injection Y as -> ->.
      assert (LE: s_hl m * e_hash e0 + s_hl m <= s_hl m * nh) by (clear - EH; nia).
      assert (LF: s_hl m * nh < 2 ^ 24) by (clear - HL NE; nia).
      remember (s_hl m * e_hash e0) as xx eqn:EX. remember (s_hl m * nh) as yy eqn:EY.
      assert (TL: sub32 (next + toc_length ne nh (s_hl m)) (n2 + ((ne - local') * 8 + xx) + s_hl m) = yy - xx - s_hl m).
      { replace (next + toc_length ne nh (s_hl m)) with (n2 + ((ne - local') * 8 + xx) + s_hl m + (yy - xx - s_hl m)).
        - apply sub32_dist. lia.
        - unfold toc_length, TOC_HEADER, ENTRY_LEN. rewrite <- EY. lia. }
      rewrite TL in T2. exists (mid ++ h ++ tl). split; [split; [rewrite T1, H1, M1; now rewrite <- !app_assoc|rewrite <- M2 in H4, T4; apply read_at_app; [exact M4|apply read_at_app; [exact H4|rewrite H2; exact T4]]]|].
      split; [unfold bytes_ok in *; rewrite !Forall_app; auto|]. split; [rewrite !app_length; lia|]. split; [auto|].
      unfold window. rewrite skipn_app, skipn_all2 by lia. replace (N.to_nat (8 * (ne - local') + xx) - length mid)%nat with 0%nat by lia. cbn [skipn app].
      rewrite firstn_app, firstn_all2 by lia. replace (N.to_nat (s_hl m) - length h)%nat with 0%nat by lia. now rewrite app_nil_r.
    - apply ret_ok in Y. destruct Y as (-> & Y). injection Y as -> ->.
      assert (LF: s_hl m * nh < 2 ^ 24) by (clear - HL NE; nia).
      assert (TL: sub32 (next + toc_length ne nh (s_hl m)) n2 = 8 * (ne - local') + s_hl m * nh).
      { replace (next + toc_length ne nh (s_hl m)) with (n2 + (8 * (ne - local') + s_hl m * nh)).
        - apply sub32_dist. lia.
        - unfold toc_length, TOC_HEADER, ENTRY_LEN. lia. }
      rewrite TL in T2. exists tl. split; [split; [auto|exact T4]|]. split; [auto|]. split; [lia|auto]. }
  destruct BB as (B & (B1 & BR) & B2 & B3 & B4).
  destruct (whole_table th (s_type m) (s_hl m) A es B ltac:(lia) R3 A3 B2 E3 K (N.to_nat local) ltac:(lia)) as (t & W1 & W2 & (P & Q & W3 & W4) & W5 & W6 & W7).
  { fold ne. lia. }
  { fold ne nh. lia. }
  fold ne nh in W5, W6, W7.
  assert (HT: hash (s_type m) (enc_toc t) = want).
  { rewrite W1. rewrite EN, B1, E2, A1, R1, ST in CW'. cbn [app] in CW'. rewrite <- !app_assoc in CW'. exact CW'. }
  assert (SR: read_parts rd (enc_toc t)).
  { exists (enc_toc t), [], next, 0. rewrite app_nil_r. split; [reflexivity|]. split; [|apply read_at_nil]. rewrite W1. clear - R4 A4 ER BR R2 A2 E4.
    apply read_at_app; [exact R4|]. rewrite R2. apply read_at_app; [exact A4|]. rewrite A2. apply read_at_app; [exact ER|]. rewrite length_enc_entries.
    replace (next + 4 + 8 * local + N.of_nat (8 * length es)) with n2 by lia. exact BR. }
  assert (HI: hash_in t e0 = eh0).
  { unfold hash_in. destruct eh0 as [h|].
    - destruct B4 as (EH & ->). rewrite W7 by lia. f_equal. f_equal. lia.
    - apply nth_error_None. lia. }
  assert (NT: forall j z, nth_error es j = Some z -> nth_error (tc_entries t) (N.to_nat local + j) = Some z).
  { intros j z NJ. rewrite W3, nth_error_app2 by lia. rewrite W4. replace (N.to_nat local + j - N.to_nat local)%nat with j by lia.
    rewrite nth_error_app1 by (apply nth_error_Some; congruence). exact NJ. }
  assert (NB: forall k z pre post, es = pre ++ post -> Forall (skipped types parent) pre -> nth_error (tc_entries t) k = Some z -> (k < N.to_nat local + length pre)%nat ->
     start <= index + N.of_nat k -> skipped types parent z).
  { intros k z pre post EQ SP NK KL SK. assert (KG: (N.to_nat local <= k)%nat) by lia.
    rewrite W3, nth_error_app2 in NK by lia. rewrite EQ, <- app_assoc, nth_error_app1 in NK by lia. rewrite Forall_forall in SP. apply SP. eapply nth_error_In; eauto. }
  unfold T_EXTENSION in *.
  destruct E6 as [(pre & EQ & MA & PA & SP)|(LN & LE & SP)].
  - assert (TE: e_type e0 <> 1) by (apply MA). destruct (N.eqb_spec (e_type e0) 1); [contradiction|].
    apply ret_ok in H. destruct H as (-> & H). injection H as -> -> ->.
    replace (index + local' - 1) with (index + N.of_nat (N.to_nat local + length pre)) by (rewrite E5, EQ, app_length; cbn [length]; lia).
    assert (LEN: (length pre < length es)%nat) by (rewrite EQ, app_length; cbn [length]; lia).
    rewrite <- HI. eapply found_here; eauto.
    + apply NT. rewrite EQ, nth_error_app2 by lia. now rewrite Nat.sub_diag.
    + destruct LC as [(LC & _)|(-> & LC2 & LC3)]; [left; lia|right; lia].
  - assert (LS: length es = S (N.to_nat (ne - local) - 1)) by lia. pose proof (last_nth _ es no_entry _ LS) as LA. rewrite <- LE in LA.
    destruct (N.eqb_spec (e_type e0) 1) as [TE|TE].
    + destruct (E7 _ _ LA TE) as (I254 & EH). assert (NE5: ne = 255) by lia.
      apply NT in LA. replace (N.to_nat local + (N.to_nat (ne - local) - 1))%nat with 254%nat in LA by lia.
      destruct eh0 as [h|]; [|lia]. apply IH in H; [|auto]. replace (index + local') with (index + 255) in H by lia.
      eapply found_later; eauto; [lia|]. intros j y NJ JL SJ. eapply (NB j y es []); eauto; [now rewrite app_nil_r|lia].
    + exfalso. rewrite orb_false_r in CK. apply nth_error_In in LA. rewrite Forall_forall in SP. destruct (SP _ LA) as (Q1 & _). apply Q1. now apply in_matches.
Qed.

(** What a successful read has returned. *)
Definition room (w : wanted) (left : N) : N := match w with NoData => 0 | Buffer n => N.min n left | Allocated => left end.

Lemma read_element_ok : forall fuel m types start parent off w s s' el,
  s_hl m < 2 ^ 16 ->
  read_element hash c rd eng fuel m types start parent off w s = (s', Ok el) ->
  s_valid m = true /\ start < s_entries m /\
  exists e eh, found (read_parts rd) hash (s_type m) (s_hl m) types start parent (s_root m) 0 e (el_index el) eh /\
    el_type el = e_type e /\ el_format el = e_format e /\ el_total el = e_length e /\ (e_parent e = 255 \/ e_parent e = parent) /\
    N.of_nat (length (el_data el)) = room w (e_length e - off) /\
    match eh with
    | Some h => el_data el = [] \/ exists E, read_parts rd E /\ hash (s_type m) E = h /\ N.of_nat (length E) = e_length e /\ el_data el = window (N.to_nat off) (length (el_data el)) E
    | None => read_at rd (c_addr c + (e_offset e + off) mod 65536) (el_data el)
    end.
Proof.
  intros fuel m types start parent off w s s' el HL H. unfold read_element in H. cbv zeta in H.
  apply bind_ok in H. destruct H as (s1 & ? & K & H). apply check_ok in K. destruct K as (K & ->).
  apply bind_ok in H. destruct H as (s2 & ? & K2 & H). apply check_ok in K2. destruct K2 as (K2 & ->). split; [auto|]. split; [lia|].
  apply bind_ok in H. destruct H as (s3 & [[e idx] eh] & F & H). apply find_entry_ok in F; [|auto].
  apply bind_ok in H. destruct H as (s4 & ? & K3 & H). apply check_ok in K3. destruct K3 as (K3 & ->). unfold NO_PARENT in K3.
  exists e, eh.
  match type of H with (if ?r =? 0 then _ else _) _ = _ => set (rm := r) in * end.
  assert (RM: room w (e_length e - off) = N.min rm (e_length e - off)).
  { subst rm. unfold room. destruct (N.leb_spec (e_length e) off); destruct w; lia. }
  destruct (N.eqb_spec rm 0) as [Z|Z].
  - apply ret_ok in H. destruct H as (-> & ->). cbn [el_index el_type el_format el_total el_data]. split; [exact F|]. split; [auto|]. split; [auto|]. split; [auto|].
    split; [lia|]. split; [cbn [length]; lia|]. destruct eh; [now left|]. apply read_at_nil.
  - apply bind_ok in H. destruct H as (s5 & ? & _ & H).
    assert (LO: off < e_length e). { destruct (N.leb_spec (e_length e) off) as [Q|Q]; [|auto]. subst rm. cbv iota in Z. lia. }
    clearbody rm. destruct eh as [h|].
    + apply bind_ok in H. destruct H as (s6 & ? & ST & H). apply start_hash_ok in ST.
      apply bind_ok in H. destruct H as (s7 & ? & R1 & H). apply (hash_range_ok c rd Hrd) in R1. destruct R1 as (A & A1 & A2 & _ & A4 & _).
      apply bind_ok in H. destruct H as (s8 & l & R & H). apply (flash_read_ok c rd Hrd) in R. destruct R as (R1 & R2 & _ & R4 & _).
      apply bind_ok in H. destruct H as (s9 & ? & U & H). apply update_ok in U.
      apply bind_ok in H. destruct H as (s10 & ? & R3 & H). apply (hash_range_ok c rd Hrd) in R3. destruct R3 as (B & B1 & B2 & _ & B4 & _).
      apply bind_ok in H. destruct H as (s11 & ? & EN & H). apply engine_ok in EN.
      apply bind_ok in H. destruct H as (s12 & d & HD & H). apply hashed_ok in HD. destruct HD as (-> & ->).
      apply bind_ok in H. destruct H as (s13 & ? & CW & H). apply check_ok in CW. destruct CW as (CW & ->).
      destruct (list_eq_dec N.eq_dec (hash (s_type m) (snd s11)) h) as [CW'|]; [|discriminate].
      apply ret_ok in H. destruct H as (-> & ->). cbn [el_index el_type el_format el_total el_data]. split; [exact F|]. split; [auto|]. split; [auto|]. split; [auto|].
      split; [lia|]. split; [lia|]. right. exists (A ++ l ++ B). split; [exists A, (l ++ B); do 2 eexists; split; [reflexivity|]; split; [exact A4|]; apply read_at_app; [exact R4|rewrite R2; exact B4]|].
      rewrite EN, B1, U, R1, A1, ST in CW'. cbn [app] in CW'. rewrite <- !app_assoc in CW'. split; [auto|]. split; [rewrite !app_length; lia|].
      unfold window. rewrite skipn_app, skipn_all2 by lia. replace (N.to_nat off - length A)%nat with 0%nat by lia. cbn [skipn app].
      now rewrite firstn_app, firstn_all, Nat.sub_diag, firstn_O, app_nil_r.
    + apply bind_ok in H. destruct H as (s8 & l & R & H). apply (flash_read_ok c rd Hrd) in R. destruct R as (R1 & R2 & R3 & R4 & R5).
      apply ret_ok in H. destruct H as (-> & ->). cbn [el_index el_type el_format el_total el_data]. split; [exact F|]. split; [auto|]. split; [auto|]. split; [auto|].
      split; [lia|]. split; [lia|]. exact R4.
Qed.
End Search.

(** * What is found depends on nothing but the hash of the first table *)
Lemma found_det : forall src src' hash ty hl types start parent want base e index eh,
  found src hash ty hl types start parent want base e index eh ->
  forall e' index' eh', found src' hash ty hl types start parent want base e' index' eh' ->
  (exists x y, x <> y /\ hash ty x = hash ty y /\ src x /\ src' y) \/ (e' = e /\ index' = index /\ eh' = eh).
Proof.
  intros src src' hash ty hl types start parent want base e index eh F.
  assert (EQ: forall (t : toc) t' w, src (enc_toc t) -> src' (enc_toc t') -> hash ty (enc_toc t) = w -> hash ty (enc_toc t') = w -> good_table ty hl t -> good_table ty hl t' ->
    (exists x y, x <> y /\ hash ty x = hash ty y /\ src x /\ src' y) \/ (tc_entries t = tc_entries t' /\ tc_hashes t = tc_hashes t')).
  { intros t t' w SR SR' A B GA GB. destruct (list_eq_dec N.eq_dec (enc_toc t) (enc_toc t')) as [E|E]; [right; eapply enc_toc_inj; eauto|left].
    exists (enc_toc t), (enc_toc t'). split; [auto|]. split; [congruence|auto]. }
  assert (HL: forall t i e (x : tentry), good_table ty hl t -> nth_error (tc_entries t) i = Some e -> (i <= 254)%nat).
  { intros t i y _ (_ & _ & _ & G) NI. assert (i < length (tc_entries t))%nat by (apply nth_error_Some; congruence). lia. }
  induction F as [want base t i e SR HT G N0 ST MA PA SK|want base t x h e index eh SR HT G NX TX LX SK HX F IH]; intros e' index' eh' F';
    inversion F' as [? ? t' i' ? SR' HT' G' N0' ST' MA' PA' SK'|? ? t' x' h' ? ? ? SR' HT' G' NX' TX' LX' SK' HX' F2]; subst;
    destruct (EQ t t' _ SR SR' eq_refl HT' G G') as [?|(E1 & E2)]; try (now left).
  - right. pose proof (HL _ _ _ e G N0) as I1. pose proof (HL _ _ _ e G' N0') as I2. rewrite E1 in *.
    assert (i = i').
    { destruct (Nat.lt_trichotomy i i') as [Q|[Q|Q]]; [|auto|]; exfalso.
      - assert (start <= base + N.of_nat i) by lia. destruct (SK' _ _ N0 Q H) as (X & _). now apply X.
      - assert (start <= base + N.of_nat i') by lia. destruct (SK _ _ N0' Q H) as (X & _). now apply X. }
    subst i'. assert (e' = e) by congruence. subst e'. unfold hash_in. now rewrite E2.
  - exfalso. pose proof (HL _ _ _ e G N0) as I1. rewrite E1 in *. assert (i <> 254%nat). { intros ->. assert (e = x') by congruence. subst x'. now destruct MA. }
    assert (start <= base + N.of_nat i) by lia. assert (Q: (i < 254)%nat) by lia. destruct (SK' _ _ N0 Q H0) as (X & _). now apply X.
  - exfalso. pose proof (HL _ _ _ e G' N0') as I1. rewrite E1 in *. assert (i' <> 254%nat). { intros ->. assert (e' = x) by congruence. subst x. now destruct MA'. }
    assert (start <= base + N.of_nat i') by lia. assert (Q: (i' < 254)%nat) by lia. destruct (SK _ _ N0' Q H0) as (X & _). now apply X.
  - rewrite E1 in *. assert (x' = x) by congruence. subst x'. unfold hash_in in *. rewrite E2 in *. assert (h' = h) by congruence. subst h'. now apply IH.
Qed.
