(** Manifests: elements of a manifest that is as it should be are found. *)
From Coq Require Import List NArith Lia Bool Arith.
From Coq Require Import ZifyBool ZifyNat ZifyN.
From Verif Require Import Base Pcr_Proofs Manifest_Model Manifest_Spec Manifest_Proofs Manifest_Verify_Proofs Manifest_Total_Proofs Manifest_Element_Proofs.
Import ListNotations.
Local Open Scope N_scope.

Section Find.
Variable c : mcfg.
Variable m : image.
Notation rd := (stable m).
Hypothesis Hsize : c_size c < 2 ^ 32.
Variable eng : nat -> bool.
Hypothesis Heng : forall k, eng k = true.
Variable hash : N -> list N -> list N.

Lemma runs_scan : forall pre z post local next t ext types parent lst acc, holds m next (flat_map enc_entry (pre ++ [z])) ->
  next + 8 * N.of_nat (length (pre ++ [z])) <= c_size c -> Forall entry_fits (pre ++ [z]) -> Forall (skipped types parent) pre ->
  (matches types z /\ (parent = 255 \/ e_parent z <> 255) \/ post = [] /\ e_type z = 1) ->
  (forall j x, nth_error (pre ++ [z]) j = Some x -> e_type x = 1 -> ext = true /\ local + N.of_nat j = 254 /\ e_hash x < t_hashes t) ->
  runs (scan_entries c rd (length (pre ++ z :: post)) local next t ext types parent lst) acc (acc ++ flat_map enc_entry (pre ++ [z]))
    (local + N.of_nat (length pre) + 1, next + 8 * (N.of_nat (length pre) + 1), z).
Proof.
  induction pre as [|x pre IH]; intros z post local next t ext types parent lst acc H S F SK Z X.
  - cbn [app length scan_entries flat_map] in *. rewrite app_nil_r in *. inversion F as [|? ? F1 _]; subst.
    eapply runs_bind; [exact (runs_read_hash c m next (enc_entry z) acc H ltac:(rewrite length_enc_entry; lia))|]. cbv zeta.
    rewrite parse_enc_entry by auto. unfold T_EXTENSION, EXTENSION_ENTRY, NO_PARENT.
    replace (local + N.of_nat 0 + 1) with (local + 1) by lia. replace (next + 8 * (N.of_nat 0 + 1)) with (next + ENTRY_LEN) by (unfold ENTRY_LEN; lia).
    destruct Z as [(MA & PA)|(-> & TZ)].
    + destruct (N.eqb_spec (e_type z) 1) as [T|T]; [destruct MA; contradiction|].
      eapply runs_bind; [apply runs_check; lia|]. rewrite (matches_in types z MA). apply runs_ret.
    + rewrite TZ. cbn [length]. destruct (X 0%nat z eq_refl TZ) as (-> & ? & ?). change (1 =? 1) with true. cbv iota.
      eapply runs_bind; [apply runs_check; lia|]. apply runs_ret.
  - cbn [app length scan_entries flat_map] in *. inversion F as [|? ? F1 F2]; subst. inversion SK as [|? ? S1 S2]; subst.
    apply holds_app in H. destruct H as (H1 & H2). rewrite length_enc_entry in H2.
    eapply runs_bind; [exact (runs_read_hash c m next (enc_entry x) acc H1 ltac:(rewrite length_enc_entry; lia))|]. cbv zeta.
    rewrite parse_enc_entry by auto. unfold T_EXTENSION, EXTENSION_ENTRY, NO_PARENT.
    rewrite app_assoc. replace (local + N.of_nat (Datatypes.S (length pre)) + 1) with (local + 1 + N.of_nat (length pre) + 1) by lia.
    replace (next + 8 * (N.of_nat (Datatypes.S (length pre)) + 1)) with (next + ENTRY_LEN + 8 * (N.of_nat (length pre) + 1)) by (unfold ENTRY_LEN; lia).
    assert (GO: runs (scan_entries c rd (length (pre ++ z :: post)) (local + 1) (next + ENTRY_LEN) t ext types parent x) (acc ++ enc_entry x) ((acc ++ enc_entry x) ++ flat_map enc_entry (pre ++ [z]))
       (local + 1 + N.of_nat (length pre) + 1, next + ENTRY_LEN + 8 * (N.of_nat (length pre) + 1), z)).
    { apply IH; auto; [unfold ENTRY_LEN; lia|]. intros j y NJ TY. destruct (X (Datatypes.S j) y NJ TY) as (? & ? & ?). split; [auto|]. split; [lia|auto]. }
    destruct (N.eqb_spec (e_type x) 1) as [T|T].
    + destruct (X 0%nat x eq_refl T) as (-> & ? & ?). eapply runs_bind; [apply runs_check; lia|]. exact GO.
    + destruct S1 as (NM & PP). specialize (PP T). eapply runs_bind; [apply runs_check; lia|].
      destruct (in_types types (e_type x)) eqn:IN; [destruct NM; now apply in_matches|]. exact GO.
Qed.

(** One table. *)
Lemma runs_find_table : forall f s types start parent a index want acc acc2 out allow off extra t P pre z post,
  holds m a (enc_toc t) -> a + N.of_nat (length (enc_toc t)) <= c_size c -> toc_ok allow (s_type s) (s_hl s) off extra t -> s_ext s = allow -> s_hl s < 2 ^ 16 ->
  tc_entries t = P ++ pre ++ z :: post -> hash (s_type s) (enc_toc t) = want ->
  (if index <? start then start - index else 0) = N.of_nat (length P) \/ (N.of_nat (length (tc_entries t)) <= (if index <? start then start - index else 0) /\ length (tc_entries t) = 255%nat /\ length P = 254%nat) ->
  Forall (skipped types parent) pre ->
  (matches types z /\ (parent = 255 \/ e_parent z <> 255) \/ post = [] /\ e_type z = 1) ->
  runs (if e_type z =? 1 then find_entry hash c rd eng f s types start parent (c_addr c + e_offset z) (index + (N.of_nat (length P) + N.of_nat (length pre) + 1)) (match hash_in t z with Some h => h | None => want end)
        else ret (z, index + (N.of_nat (length P) + N.of_nat (length pre) + 1) - 1, hash_in t z)) (enc_toc t) acc2 out ->
  runs (find_entry hash c rd eng (Datatypes.S f) s types start parent a index want) acc acc2 out.
Proof.
  intros f s types start parent a index want acc acc2 out allow off extra t P pre z post H S K EX HL ES HW LO SK Z G.
  assert (LT: N.of_nat (length (enc_toc t)) = 4 + 8 * N.of_nat (length (tc_entries t)) + s_hl s * N.of_nat (length (tc_hashes t))).
  { rewrite (length_enc_toc t (s_hl s)) by apply (tk_hashes _ _ _ _ _ _ K). reflexivity. }
  assert (LE: length (tc_entries t) = (length P + length pre + 1 + length post)%nat) by (rewrite ES, !app_length; cbn [length]; lia).
  pose proof (tk_hashes _ _ _ _ _ _ K) as FH. pose proof (tk_count _ _ _ _ _ _ K) as (CE & CH).
  assert (LC: N.of_nat (length (concat (tc_hashes t))) = s_hl s * N.of_nat (length (tc_hashes t))).
  { rewrite (length_concat_all (N.to_nat (s_hl s))); [lia|]. eapply Forall_impl; [|exact FH]. cbv beta. intros. lia. }
  assert (EB: enc_toc t = enc_toc_header t ++ flat_map enc_entry P ++ flat_map enc_entry (pre ++ [z]) ++ (flat_map enc_entry post ++ concat (tc_hashes t))).
  { rewrite enc_toc_parts, ES, !flat_map_app. cbn [flat_map]. rewrite ?app_nil_r, <- !app_assoc. reflexivity. }
  assert (HB := H). rewrite EB in HB. apply holds_app in HB. destruct HB as (H1 & HB). apply holds_app in HB. destruct HB as (H2 & HB). apply holds_app in HB. destruct HB as (H3 & H4).
  rewrite !length_enc_entries in *. cbn [length enc_toc_header] in H2, H3, H4. rewrite app_length in H4. cbn [length] in H4.
  replace (a + N.of_nat 4 + N.of_nat (8 * length P)) with (a + 4 + 8 * N.of_nat (length P)) in * by lia.
  replace (a + 4 + 8 * N.of_nat (length P) + N.of_nat (8 * (length pre + 1))) with (a + 4 + 8 * N.of_nat (length P) + 8 * (N.of_nat (length pre) + 1)) in * by lia.
  change (N.of_nat 4) with 4 in *.
  pose proof (tk_fits _ _ _ _ _ _ K) as FI. rewrite ES in FI. rewrite Forall_app in FI. destruct FI as (_ & FI).
  replace (pre ++ z :: post) with ((pre ++ [z]) ++ post) in FI by (now rewrite <- app_assoc). rewrite Forall_app in FI. destruct FI as (FI & _).
  cbn [find_entry]. cbv zeta. unfold TOC_HEADER, ENTRY_LEN.
  eapply runs_bind; [now apply runs_start|].
  eapply runs_bind. { exact (runs_read_hash c m a (enc_toc_header t) [] H1 ltac:(cbn [length enc_toc_header]; lia)). }
  assert (PT: t_entries (parse_toc (enc_toc_header t)) = N.of_nat (length (tc_entries t)) /\ t_hashes (parse_toc (enc_toc_header t)) = N.of_nat (length (tc_hashes t)) /\ t_type (parse_toc (enc_toc_header t)) = tc_type t) by (repeat split; reflexivity).
  destruct PT as (PT1 & PT2 & PT3). rewrite PT1, PT2, PT3.
  eapply runs_bind. { apply runs_check. unfold convert_type. rewrite (tk_type _ _ _ _ _ _ K). apply N.eqb_refl. }
  eapply runs_bind with (x := N.of_nat (length P)). { unfold MAX_ENTRIES, EXTENSION_ENTRY. destruct LO as [->|(LO1 & LO2 & LO3)].
    - destruct (N.leb_spec (N.of_nat (length (tc_entries t))) (N.of_nat (length P))); [lia|]. apply runs_ret.
    - destruct (N.leb_spec (N.of_nat (length (tc_entries t))) (if index <? start then start - index else 0)); [|lia]. rewrite LO2, LO3. apply runs_ret. }
  eapply runs_bind. { apply (runs_range c m _ (flat_map enc_entry P)); [rewrite length_enc_entries; lia|exact H2|rewrite length_enc_entries; lia]. }
  eapply runs_bind. { replace (N.to_nat (N.of_nat (length (tc_entries t)) - N.of_nat (length P))) with (length (pre ++ z :: post)) by (rewrite app_length; cbn [length]; lia).
    apply runs_scan; [exact H3|rewrite app_length; cbn [length]; lia|exact FI|exact SK|exact Z|].
    rewrite EX. intros j x NJ TX. rewrite PT2. destruct (tk_ext _ _ _ _ _ _ K (length P + j)%nat x) as (? & ? & ?); [|auto|split; [auto|split; [lia|auto]]].
    rewrite ES, nth_error_app2 by lia. replace (length P + j - length P)%nat with j by lia.
    replace (pre ++ z :: post) with ((pre ++ [z]) ++ post) by (now rewrite <- app_assoc). rewrite nth_error_app1 by (apply nth_error_Some; congruence). exact NJ. }
  cbv beta iota. unfold T_EXTENSION.
  eapply runs_bind. { apply runs_check. destruct Z as [(MA & _)|(_ & ->)]; [now rewrite (matches_in types z MA)|now rewrite orb_true_r]. }
  set (pos := a + 4 + 8 * N.of_nat (length P) + 8 * (N.of_nat (length pre) + 1)) in *.
  set (acc1 := (([] ++ enc_toc_header t) ++ flat_map enc_entry P) ++ flat_map enc_entry (pre ++ [z])).
  (* the hashes *)
  assert (Y: exists n3 acc3 tail, 
    runs (if e_hash z <? N.of_nat (length (tc_hashes t))
          then hash_range c rd pos ((N.of_nat (length (tc_entries t)) - (N.of_nat (length P) + N.of_nat (length pre) + 1)) * 8 + s_hl s * e_hash z) ;;;
               eh <- read_hash c rd (pos + ((N.of_nat (length (tc_entries t)) - (N.of_nat (length P) + N.of_nat (length pre) + 1)) * 8 + s_hl s * e_hash z)) (s_hl s) ;;
               ret (pos + ((N.of_nat (length (tc_entries t)) - (N.of_nat (length P) + N.of_nat (length pre) + 1)) * 8 + s_hl s * e_hash z) + s_hl s, Some eh)
          else ret (pos, None)) acc1 acc3 (n3, hash_in t z) /\ acc3 ++ tail = acc1 ++ flat_map enc_entry post ++ concat (tc_hashes t) /\ holds m n3 tail /\
          n3 + N.of_nat (length tail) = a + N.of_nat (length (enc_toc t))).
  { unfold hash_in. destruct (N.ltb_spec (e_hash z) (N.of_nat (length (tc_hashes t)))) as [EH|EH].
    - destruct (nth_error (tc_hashes t) (N.to_nat (e_hash z))) as [h|] eqn:NH; [|apply nth_error_None in NH; lia].
      destruct (nth_error_split _ _ NH) as (A & B & AB & LA). rewrite AB in H4, LC, FH. rewrite concat_app in H4. cbn [concat] in H4.
      rewrite Forall_app in FH. destruct FH as (FA & FB). inversion FB as [|? ? Fh FB']; subst x l.
      assert (CA: N.of_nat (length (concat A)) = s_hl s * e_hash z).
      { rewrite (length_concat_all (N.to_nat (s_hl s))); [lia|]. eapply Forall_impl; [|exact FA]. cbv beta. intros. lia. }
      rewrite app_assoc in H4. apply holds_app in H4. destruct H4 as (H4 & H5). apply holds_app in H5. destruct H5 as (H5 & H6).
      assert (LM: N.of_nat (length (flat_map enc_entry post ++ concat A)) = (N.of_nat (length (tc_entries t)) - (N.of_nat (length P) + N.of_nat (length pre) + 1)) * 8 + s_hl s * e_hash z).
      { rewrite app_length, length_enc_entries, LE. lia. }
      rewrite <- LM. rewrite concat_app in LC. cbn [concat] in LC. rewrite !app_length in LC.
      assert (BND: pos + N.of_nat (length (flat_map enc_entry post ++ concat A)) + s_hl s + N.of_nat (length (concat B)) = a + N.of_nat (length (enc_toc t))).
      { rewrite LT, app_length, length_enc_entries. cbn [length] in LC. unfold pos. rewrite AB, app_length. cbn [length]. lia. }
      exists (pos + N.of_nat (length (flat_map enc_entry post ++ concat A)) + s_hl s), ((acc1 ++ (flat_map enc_entry post ++ concat A)) ++ h), (concat B).
      split. { eapply runs_bind. { apply runs_range; [reflexivity|exact H4|lia]. }
        eapply runs_bind. { rewrite <- Fh. apply runs_read_hash; [exact H5|lia]. } apply runs_ret. }
      split; [rewrite AB, concat_app; cbn [concat]; now rewrite <- !app_assoc|]. split; [rewrite <- Fh; exact H6|]. lia.
    - exists pos, acc1, (flat_map enc_entry post ++ concat (tc_hashes t)). replace (nth_error (tc_hashes t) (N.to_nat (e_hash z))) with (@None (list N)) by (symmetry; apply nth_error_None; lia).
      split; [apply runs_ret|]. split; [reflexivity|]. split; [exact H4|]. rewrite app_length, length_enc_entries, LT. unfold pos. lia. }
  destruct Y as (n3 & acc3 & tail & Y1 & Y2 & Y3 & Y4).
  eapply runs_bind; [exact Y1|]. cbv beta iota.
  eapply runs_bind. { apply (runs_range c m _ tail); [|exact Y3|lia]. unfold toc_length, TOC_HEADER, ENTRY_LEN.
    replace (a + (4 + 8 * N.of_nat (length (tc_entries t)) + s_hl s * N.of_nat (length (tc_hashes t)))) with (n3 + N.of_nat (length tail)) by lia. apply sub32_fwd. lia. }
  eapply runs_bind; [now apply runs_engine|].
  assert (WH: acc3 ++ tail = enc_toc t). { rewrite Y2, EB. unfold acc1. cbn [app]. now rewrite <- !app_assoc. }
  rewrite WH. eapply runs_bind; [apply runs_hashed|].
  eapply runs_bind. { apply runs_check. destruct (list_eq_dec N.eq_dec (hash (s_type s) (enc_toc t)) want); [reflexivity|contradiction]. }
  rewrite N.add_assoc in *. exact G.
Qed.

(** Where the tables are. *)
Fixpoint placed (pos : N) (t : toc) (ts : list toc) : Prop :=
  holds m (c_addr c + pos) (enc_toc t) /\ c_addr c + pos + N.of_nat (length (enc_toc t)) <= c_size c /\
  match ts with [] => True | t2 :: r => match extension t with Some x => placed (e_offset x) t2 r | None => False end end.

Lemma skipn_skipped : forall types parent start index (l : list tentry) k z post pre,
  (forall j x, start <= index + N.of_nat j < index + N.of_nat k -> nth_error l j = Some x -> skipped types parent x) ->
  forall P, l = P ++ pre ++ z :: post -> start <= index + N.of_nat (length P) -> (length P + length pre = k)%nat -> Forall (skipped types parent) pre.
Proof.
  intros types parent start index l k z post pre H P E S L. rewrite Forall_forall. intros x I0. apply In_nth_error in I0. destruct I0 as (j & NJ).
  assert (j < length pre)%nat by (apply nth_error_Some; congruence).
  apply (H (length P + j)%nat x); [lia|]. rewrite E, nth_error_app2 by lia. replace (length P + j - length P)%nat with j by lia. now rewrite nth_error_app1 by lia.
Qed.

Lemma split_at : forall (A : Type) (l : list A) i z, nth_error l i = Some z -> forall p, (p <= i)%nat ->
  exists P pre post, l = P ++ pre ++ z :: post /\ length P = p /\ (length P + length pre = i)%nat.
Proof.
  intros A l i z N0 p LP. destruct (nth_error_split _ _ N0) as (a & b & E & LA). exists (firstn p a), (skipn p a), b.
  rewrite app_assoc, firstn_skipn. split; [auto|]. rewrite firstn_length, skipn_length. lia.
Qed.

Lemma runs_find : forall ts fuel s types start parent pos index acc t extra allow off i e want,
  linked hash (s_type s) want t ts -> placed pos t ts -> toc_ok allow (s_type s) (s_hl s) off extra t ->
  Forall (fun x => exists o, toc_ok allow (s_type s) (s_hl s) o 0 x) ts ->
  s_ext s = allow -> s_hl s < 2 ^ 16 -> (length ts < fuel)%nat ->
  nth_error (flat_map tc_entries (t :: ts)) i = Some e -> start <= index + N.of_nat i -> matches types e -> (parent = 255 \/ e_parent e <> 255) ->
  (forall j x, start <= index + N.of_nat j < index + N.of_nat i -> nth_error (flat_map tc_entries (t :: ts)) j = Some x -> skipped types parent x) ->
  exists acc', runs (find_entry hash c rd eng fuel s types start parent (c_addr c + pos) index want) acc acc' (e, index + N.of_nat i, hash_of (t :: ts) i).
Proof.
  induction ts as [|t2 ts IH]; intros fuel s types start parent pos index acc t extra allow off i e want L PL K KS EX HL FU N0 ST MA PA SK; (destruct fuel as [|f]; [cbn in FU; lia|]);
    cbn [placed] in PL; destruct PL as (PL1 & PL2 & PL3); cbn [flat_map] in N0, SK; pose proof (tk_count _ _ _ _ _ _ K) as (CE & _).
  - rewrite app_nil_r in *. assert (HW: hash (s_type s) (enc_toc t) = want) by (inversion L; auto).
    assert (LI: (i < length (tc_entries t))%nat) by (apply nth_error_Some; congruence).
    set (lo := if index <? start then start - index else 0). assert (LO: (N.to_nat lo <= i)%nat) by (unfold lo; destruct (N.ltb_spec index start); lia).
    destruct (split_at _ _ _ _ N0 _ LO) as (P & pre & post & E & LP & LQ).
    exists (enc_toc t). eapply runs_find_table; eauto.
    + fold lo. left. lia.
    + eapply (skipn_skipped types parent start index (tc_entries t) i e post pre SK P E); [|auto]. unfold lo in LP. destruct (N.ltb_spec index start); lia.
    + destruct MA as (T & _). destruct (N.eqb_spec (e_type e) 1); [contradiction|]. cbn [hash_of]. rewrite N0.
      replace (index + (N.of_nat (length P) + N.of_nat (length pre) + 1) - 1) with (index + N.of_nat i) by lia. apply runs_ret.
  - destruct (Nat.lt_ge_cases i (length (tc_entries t))) as [LI|LI].
    + rewrite nth_error_app1 in N0 by auto. assert (HW: hash (s_type s) (enc_toc t) = want) by (inversion L; auto).
      set (lo := if index <? start then start - index else 0). assert (LO: (N.to_nat lo <= i)%nat) by (unfold lo; destruct (N.ltb_spec index start); lia).
      destruct (split_at _ _ _ _ N0 _ LO) as (P & pre & post & E & LP & LQ).
      exists (enc_toc t). eapply runs_find_table; eauto.
      * fold lo. left. lia.
      * eapply (skipn_skipped types parent start index (tc_entries t) i e post pre); [|exact E| |auto].
        { intros j x J NJ. apply (SK j x J). rewrite nth_error_app1; auto. apply nth_error_Some. congruence. }
        unfold lo in LP. destruct (N.ltb_spec index start); lia.
      * destruct MA as (T & _). destruct (N.eqb_spec (e_type e) 1); [contradiction|]. cbn [hash_of]. rewrite N0.
        replace (index + (N.of_nat (length P) + N.of_nat (length pre) + 1) - 1) with (index + N.of_nat i) by lia. apply runs_ret.
    + rewrite nth_error_app2 in N0 by auto. inversion L as [|? ? x h ? ? HW XT HH L2]; subst. rewrite XT in PL3.
      destruct (extension_full _ _ _ _ _ _ _ K XT) as (L255 & NX & _). destruct (extension_spec t x XT) as (TX & _).
      set (lo := if index <? start then start - index else 0). set (p := Nat.min (N.to_nat lo) 254).
      destruct (split_at _ _ _ _ NX p ltac:(unfold p; lia)) as (P & pre & post & E & LP & LQ).
      assert (PO: post = []). { assert (LE: length (tc_entries t) = (length P + length pre + 1 + length post)%nat) by (rewrite E, !app_length; cbn [length]; lia). destruct post; [auto|]. cbn [length] in LE. lia. }
      subst post. inversion KS as [|? ? (o2 & K2) KS2]; subst.
      destruct (IH f s types start parent (e_offset x) (index + 255) (enc_toc t) t2 0 (s_ext s) o2 (i - 255)%nat e h) as (acc' & R); auto.
      { cbn [length] in FU. lia. }
      { rewrite <- L255. exact N0. }
      { lia. }
      { intros j y J NJ. apply (SK (255 + j)%nat y); [lia|]. rewrite nth_error_app2 by lia. now replace (255 + j - length (tc_entries t))%nat with j by lia. }
      exists acc'. eapply runs_find_table; eauto.
      * fold lo. destruct (N.le_gt_cases lo 254); [left; lia|right; lia].
      * destruct (N.le_gt_cases lo 254) as [LL|LL].
        { eapply (skipn_skipped types parent start index (tc_entries t) 254 x [] pre) with (P := P); [|exact E| |auto].
          - intros j y J NJ. apply (SK j y); [lia|]. rewrite nth_error_app1; auto. apply nth_error_Some. congruence.
          - unfold p, lo in *. destruct (N.ltb_spec index start); lia. }
        { destruct pre; [constructor|]. cbn [length] in LQ. unfold p in LP. lia. }
      * rewrite TX. change (1 =? 1) with true. cbv iota. rewrite HH.
        replace (index + (N.of_nat (length P) + N.of_nat (length pre) + 1)) with (index + 255) by lia.
        cbn [hash_of]. replace (nth_error (tc_entries t) i) with (@None tentry) by (symmetry; apply nth_error_None; lia). rewrite L255.
        replace (index + N.of_nat i) with (index + 255 + N.of_nat (i - 255)) by lia. exact R.
Qed.

Lemma follow_placed : forall ts t2 allow ty hl pos x rest, follow allow ty hl pos (Some x) rest (t2 :: ts) ->
  holds m (c_addr c + pos) rest -> c_addr c + pos + N.of_nat (length rest) <= c_size c ->
  placed (e_offset x) t2 ts /\ Forall (fun y => exists o, toc_ok allow ty hl o 0 y) (t2 :: ts).
Proof.
  induction ts as [|t3 ts IH]; intros t2 allow ty hl pos x rest F H S; inversion F as [|? ? gap ? rest' ? G LX K F']; subst;
    apply holds_app in H; destruct H as (H1 & H); apply holds_app in H; destruct H as (H2 & H3);
    replace (c_addr c + pos + N.of_nat (length gap)) with (c_addr c + e_offset x) in * by lia; rewrite !app_length in S; cbn [placed].
  - split; [|constructor; [eauto|constructor]]. split; [auto|]. split; [lia|exact I].
  - destruct (extension t2) as [y|] eqn:EX; [|inversion F'].
    destruct (IH t3 allow ty hl (e_offset x + N.of_nat (length (enc_toc t2))) y rest' F') as (P1 & P2); [|lia|].
    { replace (c_addr c + (e_offset x + N.of_nat (length (enc_toc t2)))) with (c_addr c + e_offset x + N.of_nat (length (enc_toc t2))) by lia. exact H3. }
    split; [|constructor; [eauto|auto]]. split; [auto|]. split; [lia|auto].
Qed.

Lemma layout_placed : forall allow D h ty hl t rh id ts, layout allow D h ty hl t rh id ts -> holds m (c_addr c) D ->
  c_addr c + N.of_nat (length D) <= c_size c -> placed 12 t ts /\ Forall (fun y => exists o, toc_ok allow ty hl o 0 y) ts.
Proof.
  intros allow D h ty hl t rh id ts [LB LF (LH & LR) K] H S. destruct LB as (r & gap & p & pa & pb & pd & rest & -> & P & G & F).
  apply holds_app in H. destruct H as (_ & H). rewrite length_enc_header in H.
  apply holds_app in H. destruct H as (H2 & H). apply holds_app in H. destruct H as (_ & H). apply holds_app in H. destruct H as (_ & H). apply holds_app in H. destruct H as (_ & H).
  rewrite !app_length, length_enc_header in S. cbn [length] in S. rewrite app_length in H. cbn [length] in H.
  destruct ts as [|t2 ts]; cbn [placed].
  - split; [|constructor]. split; [exact H2|]. split; [lia|exact I].
  - destruct (extension t) as [x|] eqn:EX; [|inversion F].
    destruct (follow_placed ts t2 _ _ _ _ x rest F) as (P1 & P2); [|lia|split; [split; [exact H2|split; [lia|exact P1]]|exact P2]].
    replace (c_addr c + (e_offset p + 4 + N.of_nat (length id))) with (c_addr c + N.of_nat 12 + N.of_nat (length (enc_toc t)) + N.of_nat (length rh) + N.of_nat (length gap) + N.of_nat (4 + length id)) by lia. exact H.
Qed.

Lemma holds_img : forall a n, holds m a (img_read m a n).
Proof. intros a n. unfold holds. now rewrite length_img_read. Qed.

Lemma runs_element : forall fuel s types start parent off w t ts allow D h e i acc,
  layout allow D h (s_type s) (s_hl s) t (s_root s) (s_platform s) ts -> holds m (c_addr c) D -> c_addr c + N.of_nat (length D) <= c_size c ->
  linked hash (s_type s) (s_root s) t ts -> s_valid s = true -> s_ext s = allow -> s_entries s = N.of_nat (entries_of t ts) -> (length ts < fuel)%nat ->
  first_match types start parent (flat_map tc_entries (t :: ts)) i e -> (e_parent e = 255 \/ e_parent e = parent) ->
  e_offset e + e_length e <= 65536 -> c_addr c + e_offset e + e_length e <= c_size c ->
  (forall hh, hash_of (t :: ts) (N.to_nat i) = Some hh -> hash (s_type s) (img_read m (c_addr c + e_offset e) (N.to_nat (e_length e))) = hh) ->
  exists acc', runs (read_element hash c rd eng fuel s types start parent off w) acc acc'
    (Element i (e_type e) (e_format e) (e_length e) (img_read m (c_addr c + e_offset e + off) (N.to_nat (room w (e_length e - off))))).
Proof.
  intros fuel s types start parent off w t ts allow D h e i acc L HD SD LK VA EX EN FU (N0 & ST & MA & PA & SK) PR OF SZ HH.
  destruct (layout_placed _ _ _ _ _ _ _ _ _ L HD SD) as (PL & KS). pose proof (ly_root _ _ _ _ _ _ _ _ _ L) as K.
  assert (HL: s_hl s < 2 ^ 16).
  { destruct (ly_hash _ _ _ _ _ _ _ _ _ L) as (LH & _). unfold hash_len in LH. destruct (s_type s =? 1); [injection LH as <-; lia|]. destruct (s_type s =? 2); [injection LH as <-; lia|].
    destruct (s_type s =? 3); [injection LH as <-; lia|discriminate]. }
  assert (LI: (N.to_nat i < entries_of t ts)%nat).
  { assert (Q: (N.to_nat i < length (flat_map tc_entries (t :: ts)))%nat) by (apply nth_error_Some; congruence).
    cbn [flat_map] in Q. rewrite app_length in Q. unfold entries_of. replace (list_sum (map (fun x => length (tc_entries x)) ts)) with (length (flat_map tc_entries ts)); [lia|].
    clear. induction ts as [|y ts IH]; [reflexivity|]. cbn [flat_map map]. rewrite app_length, IH. reflexivity. }
  destruct (runs_find ts fuel s types start parent 12 0 acc t (s_hl s) allow 12 (N.to_nat i) e (s_root s)) as (acc1 & R); auto.
  { lia. }
  { intros j x J NJ. apply (SK j x); [lia|auto]. }
  unfold read_element. cbv zeta. 
  assert (G: exists acc', runs (let room0 := if e_length e <=? off then 0 else match w with NoData => 0 | Buffer n => n | Allocated => e_length e - off end in
    if room0 =? 0 then ret (Element i (e_type e) (e_format e) (e_length e) [])
    else (match w with Allocated => engine eng | _ => ret tt end) ;;;
      match hash_of (t :: ts) (N.to_nat i) with
      | Some hh => start_hash eng ;;; hash_range c rd (c_addr c + e_offset e) off ;;;
         l <- flash_read c rd (c_addr c + (e_offset e + off) mod 65536) (N.min room0 (e_length e - off)) ;; update l ;;;
         hash_range c rd (c_addr c + (e_offset e + off) mod 65536 + N.min room0 (e_length e - off)) (e_length e - off - N.min room0 (e_length e - off)) ;;;
         engine eng ;;; d <- hashed ;; check (if list_eq_dec N.eq_dec (hash (s_type s) d) hh then true else false) MElementInvalid ;;;
         ret (Element i (e_type e) (e_format e) (e_length e) l)
      | None => l <- flash_read c rd (c_addr c + (e_offset e + off) mod 65536) (N.min room0 (e_length e - off)) ;; ret (Element i (e_type e) (e_format e) (e_length e) l)
      end) acc1 acc' (Element i (e_type e) (e_format e) (e_length e) (img_read m (c_addr c + e_offset e + off) (N.to_nat (room w (e_length e - off)))))).
  { cbv zeta. set (rm := if e_length e <=? off then 0 else match w with NoData => 0 | Buffer n => n | Allocated => e_length e - off end).
    assert (RM: room w (e_length e - off) = N.min rm (e_length e - off)).
    { subst rm. unfold room. destruct (N.leb_spec (e_length e) off); destruct w; lia. }
    destruct (N.eqb_spec rm 0) as [Z|Z].
    - exists acc1. rewrite RM, Z, N.min_0_l. apply runs_ret.
    - assert (LO: off < e_length e). { destruct (N.leb_spec (e_length e) off) as [Q|Q]; [|auto]. subst rm. cbv iota in Z. lia. }
      rewrite RM. set (n := N.min rm (e_length e - off)) in *. assert (NL: n <= e_length e - off) by (unfold n; lia). clearbody n.
      rewrite (N.mod_small (e_offset e + off)) by lia. replace (c_addr c + (e_offset e + off)) with (c_addr c + e_offset e + off) by lia.
      set (a := c_addr c + e_offset e) in *.
      assert (RD: forall q, runs (flash_read c rd (a + off) n) q q (img_read m (a + off) (N.to_nat n))).
      { intros q. pose proof (runs_read c m (a + off) (img_read m (a + off) (N.to_nat n)) q (holds_img _ _)) as X. rewrite length_img_read, N2Nat.id in X. apply X. lia. }
      destruct (hash_of (t :: ts) (N.to_nat i)) as [hh|].
      + eexists. eapply runs_bind; [destruct w; (apply runs_ret || now apply runs_engine)|].
        eapply runs_bind; [now apply runs_start|].
        eapply runs_bind. { apply (runs_range c m a (img_read m a (N.to_nat off))); [rewrite length_img_read; lia|apply holds_img|rewrite length_img_read; lia]. }
        eapply runs_bind; [apply RD|]. eapply runs_bind; [apply runs_update|].
        eapply runs_bind. { apply (runs_range c m (a + off + n) (img_read m (a + off + n) (N.to_nat (e_length e - off - n)))); [rewrite length_img_read; lia|apply holds_img|rewrite length_img_read; lia]. }
        eapply runs_bind; [now apply runs_engine|]. eapply runs_bind; [apply runs_hashed|].
        eapply runs_bind; [|apply runs_ret]. apply runs_check.
        match goal with |- (if list_eq_dec _ (hash _ ?q) _ then _ else _) = _ => replace q with (img_read m a (N.to_nat (e_length e))) end.
        * destruct (list_eq_dec N.eq_dec (hash (s_type s) (img_read m a (N.to_nat (e_length e)))) hh) as [|Q]; [reflexivity|]. destruct Q. now apply HH.
        * cbn [app]. replace (N.to_nat (e_length e)) with (N.to_nat off + (N.to_nat n + N.to_nat (e_length e - off - n)))%nat by lia.
          rewrite !img_read_app, !N2Nat.id. now rewrite app_assoc.
      + eexists. eapply runs_bind; [destruct w; (apply runs_ret || now apply runs_engine)|]. eapply runs_bind; [apply RD|]. apply runs_ret. }
  destruct G as (acc' & G). exists acc'.
  eapply runs_bind; [apply runs_check; exact VA|]. eapply runs_bind; [apply runs_check; lia|].
  rewrite N.add_0_l, N2Nat.id in R. eapply runs_bind; [exact R|]. cbv beta iota. eapply runs_bind; [apply runs_check; unfold NO_PARENT; lia|]. exact G.
Qed.
End Find.
