(** Every operation of the flash log, and reading it. *)
From Coq Require Import List NArith Bool Arith Lia ZifyBool ZifyNat ZifyN.
From Verif Require Import Base RamLog_Model RamLog_Spec FlashLog_Model FlashLog_Spec FlashLog_Scan_Proofs FlashLog_Save_Proofs.
Import ListNotations.

Section Log.
Variable SS NS : nat.
Hypothesis SS_low : 7 < SS.
Hypothesis SS_high : (N.of_nat SS < 2 ^ 15)%N.
Hypothesis NS_low : 2 <= NS.
Notation inv := (inv SS NS).
Notation holds := (holds SS NS).
Notation closed := (closed SS).

Lemma inv_mono : forall s m d d' A B off, inv s m d A B off -> (d = true -> d' = true) -> inv s m d' A B off.
Proof.
  intros s m d d' A B off [I1 I2 I3 I4 I5 I6 I7 I8 I9] H; split; auto.
  destruct I8 as [?|[?|(? & ? & ? & ?)]]; auto. right; right; auto.
Qed.
Lemma inv_empty : forall s m d d' A off, inv s m d A [] off -> inv s m d' A [] off.
Proof.
  intros s m d d' A off [I1 I2 I3 I4 I5 I6 I7 I8 I9]; split; auto.
  destruct I8 as [?|[?|(? & ? & ? & K)]]; auto. congruence.
Qed.

Definition same_buffer (s s' : flog) : Prop :=
  f_buf s' = f_buf s /\ f_remain s' = f_remain s /\ f_term s' = f_term s.

Lemma save_spec : forall s m d A B off ef w s' m' r, inv s m d A B off -> (forall k, w <> WPart k) ->
  save_buffer SS NS s m ef w = (s', m', r) ->
  exists A' B' off' X, inv s' m' (after d r) A' B' off' /\ f_id s' = f_id s /\
    concat (map fst A) ++ B = X ++ concat (map fst A') ++ B' /\ (X <> [] -> NS - 1 <= length A') /\
    (NS - 1 <= length A -> NS - 1 <= length A') /\
    match r with
    | Ok => B' = [] /\ f_buf s' = [] /\ f_term s' = false /\ (f_buf s <> [] -> f_term s = true \/ f_remain s < 7 -> off' = 0)
    | EraseFailed => B' = B /\ ef = true
    | WriteFailed => B' = B /\ w = WFail
    | _ => False
    end.
Proof.
  intros s m d A B off ef w s' m' r IV WP E.
  pose proof IV as [I1 I2 I3 I4 I5 I6 I7 I8 I9]. unfold save_buffer in E.
  destruct (length (f_buf s) =? 0) eqn:LB.
  { injection E as <- <- <-. assert (F : f_buf s = []) by (destruct (f_buf s); [reflexivity|cbn in LB; lia]).
    rewrite F in I4. symmetry in I4. apply app_eq_nil in I4. destruct I4 as [I4 T].
    assert (BN : B = []) by (destruct B as [|e B]; [reflexivity|pose proof (stream_nonempty (e :: B) ltac:(congruence)); rewrite I4 in *; cbn in *; lia]).
    subst B. exists A, [], off, []. split; [apply (inv_empty _ _ d); exact IV|]. split; [reflexivity|]. split; [reflexivity|]. split; [congruence|]. split; [auto|].
    split; [reflexivity|]. split; [exact F|]. split; [destruct (f_term s); [discriminate|reflexivity]|congruence]. }
  assert (FN : f_buf s <> []) by (intros K; rewrite K in LB; cbn in LB; lia).
  destruct I3 as [(O & CL & NX)|(A' & es & EA & CL & O & O7 & NX)].
  - (* a new sector *)
    assert (F0 : f_next s mod SS = 0) by (rewrite NX, <- (Nat.add_0_r (SS * _)), mod_in by lia; reflexivity).
    assert (D0 : f_next s / SS = (f_start s + length A) mod NS) by (rewrite NX, <- (Nat.add_0_r (SS * _)), div_in by lia; reflexivity).
    rewrite F0, D0 in E. cbn [Nat.eqb andb] in E. cbv zeta in E.
    destruct ef.
    { injection E as <- <- <-. exists A, B, off, []. split; [exact IV|]. split; [reflexivity|]. split; [reflexivity|]. split; [congruence|]. split; [auto|]. split; reflexivity. }
    assert (BN : B <> []).
    { intros K. destruct (f_term s) eqn:T; [exact (I7 O eq_refl K)|]. rewrite K in I4. apply FN. exact I4. }
    remember ((f_start s + length A) mod NS) as c eqn:C.
    pose proof (holds_erase SS NS SS_low SS_high NS_low m (f_start s) (f_used s) A c I1 I2 C) as HE. cbv zeta in HE.
    rewrite <- NX in HE. 
    assert (WR : forall start1 A1, holds (erase m (f_next s) SS) start1 (upd (f_used s) c 0) A1 ->
        length A1 < NS -> c = (start1 + length A1) mod NS -> Forall (fun x => fst x <> []) A1 -> Forall closed A1 ->
        (start1 = 0 \/ length A1 = NS - 1) ->
        let a3 := next_address SS NS (f_next s + length (f_buf s)) (f_remain s) (f_term s) in
        let u := nth c (upd (f_used s) c 0) 0 + length (f_buf s) in
        exists off', inv (FLog [] (SS - a3 mod SS) false (f_id s) (upd (upd (f_used s) c 0) c (if f_term s then u - header_size else u)) a3 start1)
          (program (erase m (f_next s) SS) (f_next s) (f_buf s)) false (A1 ++ [(B, f_term s)]) [] off' /\ (f_term s = true \/ f_remain s < 7 -> off' = 0)).
    { intros start1 A1 H1 L1 C1 N1 CL1 S1 a3 u.
      pose proof (save_write SS NS SS_low SS_high NS_low (FLog (f_buf s) (f_remain s) (f_term s) (f_id s) (upd (f_used s) c 0) (f_next s) start1)
        (erase m (f_next s) SS) A1 [] B c 0 a3) as W. cbn [f_start f_used f_term f_buf f_remain f_id] in W.
      assert (U : u = 0 + length (f_buf s)).
      { unfold u. rewrite nth_upd_eq; [reflexivity|]. rewrite (h_used_len _ _ _ _ _ _ I1), C. apply pos_lt; assumption. }
      rewrite U. assert (NX0 : SS * c + 0 = f_next s) by (rewrite NX, Nat.add_0_r; reflexivity). rewrite NX0 in W. cbn [app] in W.
      apply W; auto.
      - apply holds_none; assumption.
      - rewrite <- O. exact I5. }
    destruct HE as [(LA & HA & ST)|(LA & HA & ST & CN)].
    + rewrite ST in E. destruct w as [| |k]; [| |destruct (WP k eq_refl)].
      * destruct (WR (f_start s) A HA LA C I2 CL) as (off' & W & WO); [destruct I8 as [?|[?|?]]; lia|]. cbv zeta in W.
        injection E as <- <- <-. exists (A ++ [(B, f_term s)]), [], off', []. split; [exact W|]. split; [reflexivity|].
        split; [rewrite map_app, concat_app; cbn [map concat fst app]; rewrite !app_nil_r; reflexivity|]. split; [congruence|].
        split; [rewrite app_length; cbn [length]; lia|]. split; [reflexivity|]. split; [reflexivity|]. split; [reflexivity|auto].
      * injection E as <- <- <-. exists A, B, off, []. split; [|split; [reflexivity|split; [reflexivity|split; [congruence|split; [auto|split; reflexivity]]]]].
        split; cbn [f_start f_used f_buf f_remain f_term f_next]; auto.
        -- left. split; [exact O|]. split; [exact CL|]. rewrite NX, C. reflexivity.
        -- destruct I8 as [?|[?|(? & ? & ? & ?)]]; auto. right; right. cbn [after]. auto.
    + rewrite ST in E.
      assert (LT : length (tl A) = NS - 1) by (rewrite <- LA; clear; destruct A; cbn [tl length]; lia).
      assert (NE1 : Forall (fun x : sect => fst x <> []) (tl A)) by (destruct A; [assumption|inversion_clear I2; assumption]).
      assert (CL1 : Forall closed (tl A)) by (destruct A; [assumption|inversion_clear CL; assumption]).
      assert (AN : A <> []) by (intros K; rewrite K in LA; cbn in LA; clear - LA NS_low; lia).
      destruct w as [| |k]; [| |destruct (WP k eq_refl)].
      * destruct (WR ((f_start s + 1) mod NS) (tl A) HA ltac:(rewrite LT; clear - NS_low; lia) CN NE1 CL1) as (off' & W & WO); [right; exact LT|]. cbv zeta in W.
        injection E as <- <- <-. exists (tl A ++ [(B, f_term s)]), [], off', (fst (nth 0 A none)). split; [exact W|]. split; [reflexivity|].
        split; [rewrite (concat_tl A AN), map_app, concat_app; cbn [map concat fst app]; rewrite !app_nil_r, <- app_assoc; reflexivity|].
        split; [rewrite app_length, LT; cbn [length]; clear; lia|]. split; [rewrite app_length, LT; cbn [length]; clear; lia|]. split; [reflexivity|]. split; [reflexivity|]. split; [reflexivity|auto].
      * injection E as <- <- <-. exists (tl A), B, off, (fst (nth 0 A none)).
        split; [|split; [reflexivity|split; [rewrite (concat_tl A AN), <- app_assoc; reflexivity|split; [rewrite LT; auto|split; [rewrite LT; auto|split; reflexivity]]]]].
        split; cbn [f_start f_used f_buf f_remain f_term f_next]; auto.
        -- left. split; [exact O|]. split; [exact CL1|]. rewrite NX, CN. reflexivity.
        -- right; right. cbn [after]. auto.
  - (* the open sector *)
    pose proof (stream_nonempty es) as SN.
    assert (EN : es <> []).
    { rewrite EA in I2. apply Forall_app in I2. destruct I2 as [_ I2]. inversion_clear I2 as [|? ? K _]. exact K. }
    specialize (SN EN). rewrite <- O in SN.
    remember ((f_start s + length A') mod NS) as c eqn:C.
    assert (F0 : f_next s mod SS = off) by (rewrite NX, mod_in by lia; reflexivity).
    assert (D0 : f_next s / SS = c) by (rewrite NX, div_in by lia; reflexivity).
    rewrite F0, D0 in E. replace (off =? 0) with false in E by lia. cbn [andb] in E. cbv zeta in E.
    assert (LA : length A' < NS) by (pose proof (h_len _ _ _ _ _ _ I1) as K; rewrite EA, app_length in K; cbn [length] in K; lia).
    destruct w as [| |k]; [| |destruct (WP k eq_refl)].
    + assert (U : nth c (f_used s) 0 = off).
      { rewrite C, (h_used _ _ _ _ _ _ I1) by exact LA. rewrite EA, nth_last. symmetry; exact O. }
      rewrite U in E.
      destruct (save_write SS NS SS_low SS_high NS_low s m A' es B c off _ ltac:(rewrite <- EA; exact I1)
        ltac:(rewrite EA in I2; apply Forall_app in I2; apply I2) CL C O I4 FN I5 ltac:(destruct es; [congruence|discriminate]) I9
        ltac:(rewrite EA, app_length in I8; cbn [length] in I8; destruct I8 as [?|[?|?]]; lia) eq_refl) as (off' & W & WO).
      rewrite NX in E.
      injection E as <- <- <-. exists (A' ++ [(es ++ B, f_term s)]), [], off', []. split; [exact W|]. split; [reflexivity|].
      split; [rewrite EA, !map_app, !concat_app; cbn [map concat fst app]; rewrite !app_nil_r, <- app_assoc; reflexivity|].
      split; [congruence|]. split; [rewrite EA, !app_length; cbn [length]; lia|]. split; [reflexivity|]. split; [reflexivity|]. split; [reflexivity|auto].
    + injection E as <- <- <-. exists A, B, off, []. split; [|split; [reflexivity|split; [reflexivity|split; [congruence|split; [auto|split; reflexivity]]]]].
      split; cbn [f_start f_used f_buf f_remain f_term f_next]; auto.
      * right. exists A', es. rewrite <- C. auto.
      * destruct I8 as [?|[?|(? & ? & ? & ?)]]; auto. lia.
Qed.

Lemma add_term : forall s m d A B off, inv s m d A B off -> f_term s = false -> 7 <= f_remain s -> (off = 0 -> B <> []) ->
  inv (FLog (f_buf s ++ term) (f_remain s - 7) true (f_id s) (f_used s) (f_next s) (f_start s)) m d A B off.
Proof.
  intros s m d A B off [I1 I2 I3 I4 I5 I6 I7 I8 I9] T R O; split; cbn [f_start f_used f_buf f_remain f_term f_next]; auto.
  - rewrite I4, T, app_nil_r. reflexivity.
  - rewrite app_length, length_term. lia.
  - intros K. apply app_eq_nil in K. destruct K as [_ K]; discriminate.
Qed.

Lemma add_entry : forall s m d A B off e, inv s m d A B off -> f_term s = false -> good SS e -> 7 + length (snd e) <= f_remain s ->
  forall id, inv (FLog (f_buf s ++ encode e) (f_remain s - 7 - length (snd e)) false id (f_used s) (f_next s) (f_start s)) m d A (B ++ [e]) off.
Proof.
  intros s m d A B off e [I1 I2 I3 I4 I5 I6 I7 I8 I9] T G R id; split; cbn [f_start f_used f_buf f_remain f_term f_next]; auto.
  - rewrite I4, T, stream_app, stream_cons, !app_nil_r. reflexivity.
  - rewrite app_length, length_encode. lia.
  - intros K. apply app_eq_nil in K. destruct K as [_ K]; discriminate.
  - discriminate.
  - destruct I8 as [?|[?|(? & ? & ? & ?)]]; auto. right; right. split; [assumption|]. split; [assumption|]. split; [assumption|].
    destruct B; discriminate.
  - apply Forall_app; split; [exact I9|]. constructor; [exact G|constructor].
Qed.

Lemma create_spec : forall s m d A B off e ef w s' m' r, inv s m d A B off -> (forall k, w <> WPart k) -> bytes_ok e -> (f_id s + 1 < 2 ^ 32)%N ->
  create_entry SS NS s m e ef w = (s', m', r) ->
  exists A' B' off' X, inv s' m' (match r with WriteFailed => true | _ => d end) A' B' off' /\
    (X <> [] -> NS - 1 <= length A') /\ (NS - 1 <= length A -> NS - 1 <= length A') /\
    match r with
    | Ok => f_id s' = (f_id s + 1)%N /\ concat (map fst A) ++ B ++ [(f_id s, e)] = X ++ concat (map fst A') ++ B' /\
            (exists B0, B' = B0 ++ [(f_id s, e)] /\ (B0 = B \/ B0 = [])) /\ 0 < length e /\ 7 + length e <= SS
    | _ => f_id s' = f_id s /\ concat (map fst A) ++ B = X ++ concat (map fst A') ++ B' /\ B' = B /\
           (r = BadLength /\ (length e = 0 \/ SS < 7 + length e) \/ r = EraseFailed /\ ef = true \/ r = WriteFailed /\ w = WFail)
    end.
Proof.
  intros s m d A B off e ef w s' m' r IV WP BE ID E. unfold create_entry in E.
  destruct ((length e =? 0) || (SS <? length e + header_size)) eqn:LE.
  { injection E as <- <- <-. exists A, B, off, []. split; [exact IV|]. split; [congruence|]. split; [auto|].
    split; [reflexivity|]. split; [reflexivity|]. split; [reflexivity|]. left. split; [reflexivity|]. unfold header_size in LE. lia. }
  unfold header_size in LE.
  assert (G : good SS (f_id s, e)).
  { unfold good; cbn [fst snd]. split; [destruct e; [cbn in LE; lia|discriminate]|]. split; [lia|]. split; [exact ID|exact BE]. }
  assert (EN : forall (q : flog) (t : bool), f_id q = f_id s -> FLog (f_buf q ++ encode (f_id s, e)) (f_remain q - 7 - length e) t ((f_id s + 1)%N) (f_used q) (f_next q) (f_start q) =
     (let s3 := write_header q (N.of_nat (header_size + length e)) (f_id q) in
      FLog (f_buf s3 ++ e) (f_remain s3 - length e) t ((f_id s3 + 1) mod 2 ^ 32)%N (f_used s3) (f_next s3) (f_start s3))).
  { intros q t Q. cbv zeta. unfold write_header; cbn [f_buf f_remain f_id f_used f_next f_start f_term]. rewrite Q, N.mod_small by exact ID.
    rewrite <- app_assoc. f_equal. }
  cbv zeta in E. destruct (f_term s || (f_remain s <? header_size + length e)) eqn:FU.
  - (* saving first *)
    set (s1 := if true && negb (f_term s) && (header_size <=? f_remain s) then _ else s) in E.
    pose proof IV as [I1 I2 I3 I4 I5 I6 I7 I8 I9].
    assert (O0 : f_term s = false -> off = 0 -> B <> []).
    { intros T O K. rewrite T, O, K in *. cbn [stream map concat app] in I4. rewrite I4 in I5. cbn [length] in I5.
      cbn [orb] in FU. unfold header_size in FU. lia. }
    assert (I1' : inv s1 m d A B off /\ f_id s1 = f_id s /\ (f_term s1 = true \/ f_remain s1 < 7) /\ f_buf s1 <> []).
    { unfold s1. destruct (f_term s) eqn:T; cbn [negb andb].
      - split; [exact IV|]. split; [reflexivity|]. split; [left; exact T|]. rewrite I4. intros K; apply app_eq_nil in K; destruct K; discriminate.
      - unfold header_size. destruct (7 <=? f_remain s) eqn:R.
        + split; [exact (add_term s m d A B off IV T ltac:(clear - R; lia) (O0 eq_refl))|]. split; [reflexivity|]. split; [left; reflexivity|].
          cbn [f_buf write_header]. intros K; apply app_eq_nil in K; destruct K; discriminate.
        + split; [exact IV|]. split; [reflexivity|]. split; [right; lia|]. intros K. specialize (I6 K). lia. }
    destruct I1' as (IV1 & ID1 & FULL & NE1).
    destruct (save_buffer SS NS s1 m ef w) as [[s2 m2] r2] eqn:SV.
    destruct (save_spec _ _ _ _ _ _ _ _ _ _ _ IV1 WP SV) as (A' & B' & off' & X & IV2 & ID2 & CC & XL & AL & R2).
    destruct r2; try (destruct R2; fail).
    + destruct R2 as (-> & BE2 & T2 & O2). specialize (O2 NE1 FULL). subst off'.
      rewrite <- EN in E by congruence. injection E as <- <- <-.
      pose proof IV2 as [_ _ _ _ R2 _ _ _ _]. rewrite BE2 in R2. cbn [length] in R2.
      exists A', [(f_id s, e)], 0, X. split.
      { apply (inv_mono _ _ false); [|discriminate]. rewrite T2. apply (add_entry s2 m2 false A' [] 0 (f_id s, e)); auto. cbn [snd]. lia. }
      split; [exact XL|]. split; [exact AL|]. split; [reflexivity|]. split.
      { rewrite app_assoc, CC, app_nil_r, <- app_assoc. reflexivity. }
      split; [exists []; auto|]. lia.
    + injection E as <- <- <-. exists A', B', off', X. split; [exact IV2|]. split; [exact XL|]. split; [exact AL|]. destruct R2 as [-> EF].
      split; [congruence|]. auto 8.
    + injection E as <- <- <-. exists A', B', off', X. split; [exact IV2|]. split; [exact XL|]. split; [exact AL|]. destruct R2 as [-> EF].
      split; [congruence|]. auto 8.
  - apply orb_false_iff in FU. destruct FU as [T R]. cbn [andb] in E. rewrite <- EN in E by reflexivity.
    injection E as <- <- <-. exists A, (B ++ [(f_id s, e)]), off, []. split.
    { rewrite T. apply (add_entry s m d A B off (f_id s, e)); auto. cbn [snd]. unfold header_size in R. lia. }
    split; [congruence|]. split; [auto|]. split; [reflexivity|]. split; [reflexivity|]. split; [exists B; auto|]. lia.
Qed.

Lemma clear_spec : forall s m d A B off s' m', inv s m d A B off -> clear SS NS s m false = (s', m', Ok) ->
  inv s' m' false [] [] 0 /\ f_id s' = f_id s.
Proof.
  intros s m d A B off s' m' [I1 I2 I3 I4 I5 I6 I7 I8 I9] E. injection E as <- <-. split; [|reflexivity].
  split; cbn [f_start f_used f_buf f_remain f_term f_next]; auto; try lia; try discriminate.
  - split; cbn [length]; try lia.
    + intros k K. rewrite Nat.add_0_l, Nat.mod_small by exact K. rewrite rd_erase_in; [|lia|nia].
      rewrite nth_overflow by (cbn; lia). unfold sbytes, sdata, none; cbn [fst snd stream map concat app length]. rewrite Nat.sub_0_r. reflexivity.
    + apply repeat_length.
    + intros k K. rewrite Nat.add_0_l, Nat.mod_small by exact K. rewrite nth_rep by exact K. rewrite nth_overflow by (cbn; lia). reflexivity.
    + constructor.
  - left. split; [reflexivity|]. split; [constructor|]. cbn [length Nat.add]. rewrite Nat.mod_0_l by lia. lia.
Qed.
End Log.
