(** Manifests: what a successful verification has hashed. *)
From Coq Require Import List NArith Lia Bool Arith.
From Coq Require Import ZifyBool ZifyNat ZifyN.
From Verif Require Import Base Pcr_Proofs Manifest_Model Manifest_Spec Manifest_Proofs.
Import ListNotations.
Local Open Scope N_scope.

Lemma le_value_bound : forall l, bytes_ok l -> le_value l < 256 ^ N.of_nat (length l).
Proof.
  induction l as [|b l IH]; intros B; [cbn; lia|]. inversion B; subst. cbn [le_value length]. unfold byte_ok in *. rewrite Nat2N.inj_succ, N.pow_succ_r'.
  specialize (IH ltac:(auto)). lia.
Qed.

Lemma bytes_ok_win : forall o n l, bytes_ok l -> bytes_ok (window o n l).
Proof. intros. unfold window, bytes_ok in *. apply Forall_firstn. now apply Forall_skipn. Qed.

Lemma u16_small : forall l o, bytes_ok l -> u16 l o < 65536.
Proof.
  intros l o B. unfold u16. pose proof (le_value_bound _ (bytes_ok_win o 2 l B)) as H.
  assert (L: (length (window o 2 l) <= 2)%nat) by (unfold window; rewrite firstn_length; lia).
  assert (P: 256 ^ N.of_nat (length (window o 2 l)) <= 256 ^ 2) by (apply N.pow_le_mono_r; lia).
  change (256 ^ 2) with 65536 in P. lia.
Qed.

Lemma u32_small : forall l o, bytes_ok l -> u32 l o < 2 ^ 32.
Proof.
  intros l o B. unfold u32. pose proof (le_value_bound _ (bytes_ok_win o 4 l B)) as H.
  assert (L: (length (window o 4 l) <= 4)%nat) by (unfold window; rewrite firstn_length; lia).
  assert (P: 256 ^ N.of_nat (length (window o 4 l)) <= 256 ^ 4) by (apply N.pow_le_mono_r; lia).
  change (256 ^ 4) with (2 ^ 32) in P. lia.
Qed.

Lemma u8_small : forall l o, bytes_ok l -> u8 l o < 256.
Proof.
  intros l o B. unfold u8. destruct (nth_in_or_default o l 0) as [I0|E]; [|rewrite E; lia].
  unfold bytes_ok in B. rewrite Forall_forall in B. exact (B _ I0).
Qed.

Lemma parse_entry_small : forall l, bytes_ok l -> entry_fits (parse_entry l).
Proof. intros l B. unfold entry_fits, parse_entry. cbn [e_type e_parent e_format e_hash e_offset e_length]. repeat split; auto using u8_small, u16_small. Qed.

Lemma length_enc_toc : forall t hl, Forall (fun h => N.of_nat (length h) = hl) (tc_hashes t) ->
  N.of_nat (length (enc_toc t)) = toc_length (N.of_nat (length (tc_entries t))) (N.of_nat (length (tc_hashes t))) hl.
Proof.
  intros t hl F. unfold enc_toc, toc_length, TOC_HEADER, ENTRY_LEN. rewrite !app_length, length_enc_entries, (length_concat_all (N.to_nat hl)).
  - cbn [length]. lia.
  - eapply Forall_impl; [|exact F]. cbv beta. intros. lia.
Qed.

Lemma last_nth : forall (A : Type) (l : list A) d n, length l = S n -> nth_error l n = Some (last l d).
Proof.
  intros A l d n L. destruct l as [|x l'] using rev_ind; [discriminate|]. rewrite last_last.
  rewrite app_length in L. cbn in L. rewrite nth_error_app2 by lia. replace (n - length l')%nat with 0%nat by lia. reflexivity.
Qed.

Lemma extension_spec : forall t x, extension t = Some x ->
  e_type x = 1 /\ exists n, length (tc_entries t) = S n /\ nth_error (tc_entries t) n = Some x.
Proof.
  intros t x H. unfold extension in H. destruct (tc_entries t) as [|e l] using rev_ind; [discriminate|].
  rewrite rev_app_distr in H. cbn in H. destruct (N.eqb_spec (e_type e) 1); [|discriminate]. injection H as <-.
  split; [auto|]. exists (length l). split; [rewrite app_length; cbn; lia|]. rewrite nth_error_app2 by lia. now rewrite Nat.sub_diag.
Qed.

Lemma follow_app : forall allow ty hl pos e rest ts x, follow allow ty hl pos e rest ts -> follow allow ty hl pos e (rest ++ x) ts.
Proof.
  intros allow ty hl pos e rest ts x H. induction H; [constructor|]. rewrite <- !app_assoc. econstructor; eauto.
Qed.

Lemma existsb_ext_last : forall es, (length es <= 255)%nat ->
  (forall j e, nth_error es j = Some e -> e_type e = 1 -> j = 254%nat) ->
  forall d, match rev es with e :: _ => if e_type e =? 1 then Some e else None | [] => None end =
  if existsb (fun e => e_type e =? 1) es then Some (last es d) else None.
Proof.
  intros es L J d. destruct (existsb (fun e => e_type e =? 1) es) eqn:E.
  - apply existsb_exists in E. destruct E as (x & I0 & T). apply N.eqb_eq in T. apply In_nth_error in I0. destruct I0 as (j & N0).
    pose proof (J _ _ N0 T) as ->. assert (LL: length es = 255%nat).
    { assert (254 < length es)%nat by (apply nth_error_Some; congruence). lia. }
    pose proof (last_nth _ es d 254 LL) as Q. rewrite N0 in Q. injection Q as Q.
    destruct es as [|y es'] using rev_ind; [discriminate|]. rewrite rev_app_distr. cbn. rewrite last_last in Q |- *. subst y. now rewrite T, N.eqb_refl.
  - destruct es as [|y es'] using rev_ind; [reflexivity|]. rewrite rev_app_distr. cbn. rewrite existsb_app in E. cbn in E.
    destruct (e_type y =? 1); [|reflexivity]. rewrite orb_true_r in E. discriminate.
Qed.

(** What the parts of a table put together are. *)
Lemma table_ok : forall th es hs hl, length th = 4%nat -> bytes_ok th ->
  length es = N.to_nat (t_entries (parse_toc th)) -> N.of_nat (length hs) = hl * t_hashes (parse_toc th) ->
  exists t, enc_toc t = th ++ flat_map enc_entry es ++ hs /\ tc_entries t = es /\
    N.of_nat (length (tc_hashes t)) = t_hashes (parse_toc th) /\ Forall (fun h => N.of_nat (length h) = hl) (tc_hashes t) /\
    tc_type t = t_type (parse_toc th) /\ t_entries (parse_toc th) < 256 /\ t_hashes (parse_toc th) < 256.
Proof.
  intros th es hs hl L B E H. set (nh := t_hashes (parse_toc th)) in *.
  destruct (pieces_spec (N.to_nat hl) (N.to_nat nh) hs) as (P1 & P2 & P3); [lia|].
  exists (Toc es (pieces (N.to_nat hl) (N.to_nat nh) hs) (t_type (parse_toc th)) (u8 th 3)).
  unfold enc_toc. cbn [tc_entries tc_hashes tc_type tc_reserved]. rewrite P1, P2, E.
  split. { do 5 (destruct th as [|? th]; try discriminate L). cbn [app]. unfold parse_toc in *. cbn [t_entries t_hashes t_type] in *. subst nh.
    rewrite !N2Nat.id. reflexivity. }
  split; [auto|]. split; [lia|]. split; [eapply Forall_impl; [|exact P3]; cbv beta; intros; lia|]. split; [auto|].
  unfold nh, parse_toc. cbn [t_entries t_hashes]. split; now apply u8_small.
Qed.

Section Verify.
Variable c : mcfg.
Variable rd : nat -> N -> nat -> option (list N).
Hypothesis Hrd : flash_ok rd.
Hypothesis Hsize : c_size c < 2 ^ 32.
Hypothesis Haddr : c_addr c + 65536 <= 2 ^ 32.

Lemma verify_entries_ok : forall n i next prev t ext plat lst fnd s s' next' plat' lst' fnd',
  verify_entries c rd n i next prev t ext plat lst fnd s = (s', Ok (next', plat', lst', fnd')) ->
  exists es, length es = n /\ snd s' = snd s ++ flat_map enc_entry es /\ next' = next + 8 * N.of_nat n /\
    read_at rd next (flat_map enc_entry es) /\ ascending prev es /\ Forall entry_fits es /\
    plat' = match plat with Some p => Some p | None => find (fun e => e_type e =? 0) es end /\
    lst' = last es lst /\ fnd' = fnd || existsb (fun e => e_type e =? 1) es /\
    (forall j e, nth_error es j = Some e -> e_type e = 1 -> ext = true /\ i + N.of_nat j = 254 /\ e_hash e < t_hashes t) /\
    (n <> 0%nat -> next' <= c_size c).
Proof.
  induction n as [|n IH]; intros i next prev t ext plat lst fnd s s' next' plat' lst' fnd' H; cbn [verify_entries] in H.
  - apply ret_ok in H. destruct H as (-> & H). injection H as <- <- <- <-. exists []. cbn [flat_map length find last existsb].
    rewrite app_nil_r, orb_false_r. split; [auto|]. split; [auto|]. split; [lia|]. split; [apply read_at_nil|]. split; [exact I|]. split; [auto|].
    split; [now destruct plat'|]. split; [auto|]. split; [auto|]. split; [|tauto]. intros j e N0. destruct j; discriminate.
  - apply bind_ok in H. destruct H as (s1 & l & R & H). apply (read_hash_ok c rd Hrd) in R. destruct R as (R1 & R2 & R3 & R4 & R5).
    cbv zeta in H. apply bind_ok in H. destruct H as (s2 & ? & K & H). apply check_ok in K. destruct K as (K & ->). apply N.leb_le in K.
    apply bind_ok in H. destruct H as (s3 & ? & X & H).
    assert (XX: s3 = s1 /\ (e_type (parse_entry l) = 1 -> ext = true /\ i = 254 /\ e_hash (parse_entry l) < t_hashes t)).
    { unfold T_EXTENSION, EXTENSION_ENTRY in X. destruct (N.eqb_spec (e_type (parse_entry l)) 1) as [T|T].
      - apply check_ok in X. destruct X as (X & ->). split; [auto|]. intros _. lia.
      - apply ret_ok in X. destruct X as (-> & _). split; [auto|]. contradiction. }
    destruct XX as (-> & XE). clear X. apply IH in H. destruct H as (es & E1 & E2 & E3 & E4 & E5 & E6 & E7 & E8 & E9 & E10 & E11).
    assert (L8: length l = 8%nat) by (unfold ENTRY_LEN in R2; lia).
    exists (parse_entry l :: es). cbn [flat_map length]. rewrite enc_parse_entry by auto.
    split; [now rewrite E1|]. split; [rewrite E2, R1; now rewrite app_assoc|]. split; [rewrite E3; unfold ENTRY_LEN; lia|].
    split; [apply read_at_app; [auto|]; rewrite R2; exact E4|]. split; [cbn [ascending]; auto|].
    split; [constructor; auto; now apply parse_entry_small|].
    split. { rewrite E7. cbn [find]. unfold T_PLATFORM. destruct (e_type (parse_entry l) =? 0), plat; reflexivity. }
    split. { rewrite E8. clear. revert lst. generalize (parse_entry l). induction es as [|y es IH]; intros e lst; [reflexivity|]. cbn [last] in *. destruct es; [reflexivity|]. apply IH. }
    split. { rewrite E9. cbn [existsb]. unfold T_EXTENSION. destruct (e_type (parse_entry l) =? 1), fnd; reflexivity. }
    split. { intros [|j] e N0 T; cbn [nth_error] in N0. - injection N0 as <-. destruct (XE T) as (? & ? & ?). split; [auto|]. split; [lia|auto].
      - destruct (E10 _ _ N0 T) as (? & ? & ?). split; [auto|]. split; [lia|auto]. }
    intros _. destruct n as [|n]; [|apply E11; discriminate].
    destruct es; [|discriminate]. rewrite E3. specialize (R5 ltac:(unfold ENTRY_LEN; lia)). unfold ENTRY_LEN in *. lia.
Qed.

(** One table, read from [next] on: its header, its entries and its hashes. *)
Lemma one_table : forall th s0 s1 s2 s3 x hl next extra ext next' plat lst fnd,
  read_hash c rd next 4 s0 = (s1, Ok th) -> t_entries (parse_toc th) <> 0 ->
  verify_entries c rd (N.to_nat (t_entries (parse_toc th))) 0 (next + 4)
    (next + 4 - c_addr c + t_entries (parse_toc th) * 8 + t_hashes (parse_toc th) * hl + extra) (parse_toc th) ext None no_entry false s1 =
    (s2, Ok (next', plat, lst, fnd)) ->
  hash_range c rd next' (hl * t_hashes (parse_toc th)) s2 = (s3, Ok x) ->
  c_addr c <= next ->
  exists t, snd s3 = snd s0 ++ enc_toc t /\ read_at rd next (enc_toc t) /\
    toc_ok ext (convert_type (t_type (parse_toc th))) hl (next - c_addr c) extra t /\
    plat = platform_entry t /\ (if fnd then Some lst else None) = extension t /\ Forall entry_fits (tc_entries t) /\
    next' + hl * t_hashes (parse_toc th) = next + N.of_nat (length (enc_toc t)) /\
    next + N.of_nat (length (enc_toc t)) <= c_size c /\
    N.of_nat (length (enc_toc t)) = toc_length (t_entries (parse_toc th)) (t_hashes (parse_toc th)) hl /\
    N.of_nat (length (tc_entries t)) = t_entries (parse_toc th).
Proof.
  intros th s0 s1 s2 s3 x hl next extra ext next' plat lst fnd R Z V H A.
  apply (read_hash_ok c rd Hrd) in R. destruct R as (R1 & R2 & R3 & R4 & R5).
  apply verify_entries_ok in V. destruct V as (es & E1 & E2 & E3 & E4 & E5 & E6 & E7 & E8 & E9 & E10 & E11).
  apply (hash_range_ok c rd Hrd) in H. destruct H as (hs & H1 & H2 & H3 & H4 & H5).
  destruct (table_ok th es hs hl ltac:(lia) R3 E1 H2) as (t & T1 & T2 & T3 & T4 & T5 & T6 & T7).
  assert (LT: N.of_nat (length (enc_toc t)) = toc_length (t_entries (parse_toc th)) (t_hashes (parse_toc th)) hl).
  { rewrite (length_enc_toc t hl T4), T2, T3, E1, N2Nat.id. reflexivity. }
  pose proof LT as LT'. unfold toc_length, TOC_HEADER, ENTRY_LEN in LT'.
  exists t. split; [rewrite H1, E2, R1, T1; now rewrite !app_assoc|].
  split. { rewrite T1. apply read_at_app; [auto|]. rewrite R2. apply read_at_app; [auto|]. rewrite length_enc_entries, E1.
    replace (next + 4 + N.of_nat (8 * N.to_nat (t_entries (parse_toc th)))) with next' by (rewrite E3; lia). exact H4. }
  split. { constructor.
    - rewrite T2. intros ->. cbn [length] in E1. lia.
    - rewrite T2. lia.
    - exact T4.
    - now rewrite T2.
    - rewrite T5. reflexivity.
    - rewrite T2, LT'. replace (next - c_addr c + (4 + 8 * t_entries (parse_toc th) + hl * t_hashes (parse_toc th)) + extra) with (next + 4 - c_addr c + t_entries (parse_toc th) * 8 + t_hashes (parse_toc th) * hl + extra) by lia. exact E5.
    - intros i e. rewrite T2, T3. intros N0 T. destruct (E10 _ _ N0 T) as (? & ? & ?). split; [auto|]. split; [lia|auto]. }
  split; [unfold platform_entry; now rewrite T2|].
  split. { unfold extension. rewrite T2, (existsb_ext_last es ltac:(lia)) with (d := no_entry).
    - rewrite E9, E8. reflexivity.
    - intros j e N0 T. destruct (E10 _ _ N0 T) as (_ & ? & _). lia. }
  split; [now rewrite T2|]. split; [lia|]. split; [|split; [exact LT|rewrite T2; lia]].
  assert (next' <= c_size c) by (apply E11; lia).
  destruct (N.eq_dec (hl * t_hashes (parse_toc th)) 0) as [Q|Q]; [lia|]. specialize (H5 Q). lia.
Qed.

(** The tables of the extensions. *)
Lemma verify_tocs_more : forall fuel from r ext count s s' next' count' r', e_offset from < 65536 ->
  verify_tocs c rd fuel (c_addr c + e_offset from) (Some r) from ext count s = (s', Ok (next', count', r')) ->
  exists t rest ts, snd s' = snd s ++ enc_toc t ++ rest /\ read_at rd (c_addr c + e_offset from) (enc_toc t ++ rest) /\
    toc_ok ext (r_type r) (r_hl r) (e_offset from) 0 t /\ e_length from = N.of_nat (length (enc_toc t)) /\
    follow ext (r_type r) (r_hl r) (e_offset from + N.of_nat (length (enc_toc t))) (extension t) rest ts /\
    next' = c_addr c + e_offset from + N.of_nat (length (enc_toc t ++ rest)) /\ next' <= c_size c /\ c_addr c < next' /\
    count' = count + N.of_nat (entries_of t ts) /\ r' = r.
Proof.
  induction fuel as [|f IH]; intros from r ext count s s' next' count' r' O H; cbn [verify_tocs] in H; [discriminate|].
  cbv zeta in H. unfold TOC_HEADER, ENTRY_LEN in H.
  apply bind_ok in H. destruct H as (s1 & th & R & H).
  apply bind_ok in H. destruct H as (s2 & ? & K & H). apply check_ok in K. destruct K as (K & ->).
  apply bind_ok in H. destruct H as (s3 & hl & K2 & H).
  apply bind_ok in K2. destruct K2 as (s4 & ? & K3 & K2). apply check_ok in K3. destruct K3 as (K3 & ->).
  apply bind_ok in K2. destruct K2 as (s5 & ? & K4 & K2). apply check_ok in K4. destruct K4 as (K4 & ->).
  apply ret_ok in K2. destruct K2 as (-> & ->). apply N.eqb_eq in K3, K4.
  apply bind_ok in H. destruct H as (s6 & [[[n1 plat] lst] fnd] & V & H).
  apply bind_ok in H. destruct H as (s7 & xr & HR & H).
  apply bind_ok in H. destruct H as (s8 & [n2 r2] & Y & H). apply ret_ok in Y. destruct Y as (-> & Y). injection Y as -> ->.
  destruct (one_table th s s1 s6 s7 xr (r_hl r) (c_addr c + e_offset from) 0 ext n1 plat lst fnd R ltac:(lia) V HR ltac:(lia))
    as (t & T1 & T2 & T3 & T4 & T5 & T6 & T7 & T8 & T9 & T10).
  replace (c_addr c + e_offset from - c_addr c) with (e_offset from) in T3 by lia. rewrite K3 in T3.
  change (u8 th 1) with (t_hashes (parse_toc th)) in *. rewrite T7 in H. clear V HR R.
  assert (EL: e_length from = N.of_nat (length (enc_toc t))) by (rewrite K4, T9; reflexivity).
  destruct fnd.
  - apply bind_ok in H. destruct H as (s9 & ? & G & H). apply (hash_range_ok c rd Hrd) in G. destruct G as (gap & G1 & G2 & G3 & G4 & G5).
    assert (SL: entry_fits lst).
    { destruct (extension_spec t lst (eq_sym T5)) as (_ & n & _ & N0). rewrite Forall_forall in T6. apply T6. eapply nth_error_In; eauto. }
    destruct SL as (_ & _ & _ & _ & SO & _).
    destruct (forward c (c_addr c + e_offset lst) (c_addr c + e_offset from + N.of_nat (length (enc_toc t)))) as (F1 & F2); try lia.
    rewrite <- G2 in F2. apply IH in H; [|auto]. destruct H as (t2 & rest & ts & B1 & B2 & B3 & B4 & B5 & B6 & B7 & B8 & B9 & B10).
    exists t, (gap ++ enc_toc t2 ++ rest), (t2 :: ts).
    split; [rewrite B1, G1, T1; now rewrite !app_assoc|].
    split. { apply read_at_app; [auto|]. apply read_at_app; [auto|]. rewrite F2. exact B2. }
    split; [auto|]. split; [auto|].
    split. { rewrite <- T5. econstructor; eauto. lia. }
    split; [rewrite B6; rewrite !app_length in *; lia|]. split; [auto|]. split; [auto|].
    split; [|auto]. rewrite B9. unfold entries_of. cbn [map list_sum fold_right]. unfold list_sum. cbn [map fold_right]. lia.
  - apply ret_ok in H. destruct H as (-> & H). injection H as -> -> ->. exists t, [], []. rewrite !app_nil_r.
    split; [auto|]. split; [auto|]. split; [auto|]. split; [auto|]. split; [rewrite <- T5; constructor|]. split; [auto|]. split; [auto|].
    assert (4 <= N.of_nat (length (enc_toc t))) by (rewrite T9; unfold toc_length, TOC_HEADER; lia).
    split; [lia|]. split; [|auto]. unfold entries_of, list_sum. cbn [map fold_right]. change (u8 th 0) with (t_entries (parse_toc th)). lia.
Qed.

(** All tables. *)
Lemma verify_tocs_ok : forall fuel ext s s' next' count' r h res,
  verify_tocs c rd fuel (c_addr c + 12) None no_entry ext 0 s = (s', Ok (next', count', r)) ->
  snd s = enc_header h res -> header_fits h ->
  exists D t ts, snd s' = snd s ++ D /\ read_at rd (c_addr c + 12) D /\
    (forall x, layout ext (snd s ++ D ++ x) h (r_type r) (r_hl r) t (r_hash r) (r_platform r) ts) /\
    next' = c_addr c + 12 + N.of_nat (length D) /\ next' <= c_size c /\ c_addr c < next' /\
    count' = N.of_nat (entries_of t ts) /\ N.of_nat (length (r_platform r)) <= c_max_id c.
Proof.
  intros fuel ext s s' next' count' r h res H HS HF. destruct fuel as [|f]; cbn [verify_tocs] in H; [discriminate|].
  cbv zeta in H. unfold TOC_HEADER, ENTRY_LEN in H.
  apply bind_ok in H. destruct H as (s1 & th & R & H).
  apply bind_ok in H. destruct H as (s2 & ? & K & H). apply check_ok in K. destruct K as (K & ->).
  apply bind_ok in H. destruct H as (s3 & hl & K2 & H).
  assert (HL: s3 = s1 /\ hash_len (convert_type (t_type (parse_toc th))) = Some hl).
  { destruct (hash_len (convert_type (t_type (parse_toc th)))); [|discriminate]. apply ret_ok in K2. destruct K2 as (-> & ->). auto. }
  destruct HL as (-> & HL). clear K2.
  apply bind_ok in H. destruct H as (s6 & [[[n1 plat] lst] fnd] & V & H).
  apply bind_ok in H. destruct H as (s7 & xr & HR & H).
  apply bind_ok in H. destruct H as (s8 & [n2 r2] & Y & H).
  destruct (one_table th s s1 s6 s7 xr hl (c_addr c + 12) hl ext n1 plat lst fnd R ltac:(lia) V HR ltac:(lia))
    as (t & T1 & T2 & T3 & T4 & T5 & T6 & T7 & T8 & T9 & T10).
  replace (c_addr c + 12 - c_addr c) with 12 in T3 by lia. rewrite T7 in Y. clear V HR R.
  destruct plat as [p|]; [|discriminate].
  apply bind_ok in Y. destruct Y as (s9 & rh & R & Y). apply (read_hash_ok c rd Hrd) in R. destruct R as (R1 & R2 & R3 & R4 & R5).
  apply bind_ok in Y. destruct Y as (s10 & ? & G & Y). apply (hash_range_ok c rd Hrd) in G. destruct G as (gap & G1 & G2 & G3 & G4 & G5).
  apply bind_ok in Y. destruct Y as (s11 & ph & P & Y). apply (read_hash_ok c rd Hrd) in P. destruct P as (P1 & P2 & P3 & P4 & P5).
  apply bind_ok in Y. destruct Y as (s12 & ? & K2 & Y). apply check_ok in K2. destruct K2 as (K2 & ->).
  apply bind_ok in Y. destruct Y as (s13 & id & I & Y). apply (read_hash_ok c rd Hrd) in I. destruct I as (I1 & I2 & I3 & I4 & I5).
  apply ret_ok in Y. destruct Y as (-> & Y). injection Y as -> ->.
  assert (HP: 0 < hl) by (unfold hash_len in HL; destruct (_ =? 1); [injection HL as <-; lia|]; destruct (_ =? 2); [injection HL as <-; lia|]; destruct (_ =? 3); [injection HL as <-; lia|discriminate]).
  assert (SP: entry_fits p).
  { symmetry in T4. unfold platform_entry in T4. apply find_some in T4. rewrite Forall_forall in T6. now apply T6. }
  destruct SP as (_ & _ & _ & _ & SO & _).
  destruct (forward c (c_addr c + e_offset p) (c_addr c + 12 + N.of_nat (length (enc_toc t)) + hl)) as (F1 & F2); try lia.
  rewrite <- G2 in F2.
  assert (PH: exists a b d, ph = [N.of_nat (length id); a; b; d]).
  { destruct ph as [|q1 [|q2 [|q3 [|q4 [|? ?]]]]]; try (cbn in P2; lia). cbn [u8 nth] in I2. exists q2, q3, q4. now rewrite I2. }
  destruct PH as (pa & pb & pd & PH).
  set (base := c_addr c + e_offset p + 4 + u8 ph 0) in *.
  assert (BB: c_addr c < base /\ base <= c_size c).
  { specialize (P5 ltac:(lia)). unfold base. destruct (N.eq_dec (u8 ph 0) 0) as [Q|Q]; [lia|]. specialize (I5 Q). lia. }
  assert (RA: read_at rd (c_addr c + 12) (enc_toc t ++ rh ++ gap ++ ph ++ id)).
  { apply read_at_app; [auto|]. apply read_at_app; [auto|]. rewrite R2. apply read_at_app; [auto|]. rewrite F2. apply read_at_app; [auto|]. now rewrite P2. }
  assert (CHK: N.of_nat (length id) <= c_max_id c) by lia.
  assert (SN: snd s13 = snd s ++ enc_toc t ++ rh ++ gap ++ ph ++ id).
  { rewrite I1, P1, G1, R1, T1. now rewrite !app_assoc. }
  assert (BL: base = c_addr c + 12 + N.of_nat (length (enc_toc t ++ rh ++ gap ++ ph ++ id))).
  { rewrite !app_length. unfold base. lia. }
  assert (LAY: forall rest ts, follow ext (convert_type (t_type (parse_toc th))) hl (e_offset p + 4 + N.of_nat (length id)) (extension t) rest ts ->
    layout ext (snd s ++ (enc_toc t ++ rh ++ gap ++ ph ++ id) ++ rest) h (convert_type (t_type (parse_toc th))) hl t rh id ts).
  { intros rest ts F. constructor; [|auto|auto|auto]. exists res, gap, p, pa, pb, pd, rest. split; [rewrite HS, PH, <- !app_assoc; reflexivity|].
    split; [auto|]. split; [lia|auto]. }
  destruct fnd.
  - apply bind_ok in H. destruct H as (s14 & ? & J & H). apply (hash_range_ok c rd Hrd) in J. destruct J as (g2 & J1 & J2 & J3 & J4 & J5).
    assert (SL: entry_fits lst).
    { destruct (extension_spec t lst (eq_sym T5)) as (_ & n & _ & N0). rewrite Forall_forall in T6. apply T6. eapply nth_error_In; eauto. }
    destruct SL as (_ & _ & _ & _ & SO2 & _).
    destruct (forward c (c_addr c + e_offset lst) base) as (F3 & F4); try lia.
    rewrite <- J2 in F4. apply verify_tocs_more in H; [|auto]. destruct H as (t2 & rest & ts & B1 & B2 & B3 & B4 & B5 & B6 & B7 & B8 & B9 & B10).
    subst r. cbn [r_type r_hl r_hash r_platform] in *.
    exists ((enc_toc t ++ rh ++ gap ++ ph ++ id) ++ g2 ++ enc_toc t2 ++ rest), t, (t2 :: ts).
    split; [rewrite B1, J1, SN; now rewrite !app_assoc|].
    split. { apply read_at_app; [auto|]. rewrite <- BL. apply read_at_app; [auto|]. rewrite F4. exact B2. }
    split. { intros y. rewrite <- app_assoc. apply LAY. rewrite <- T5, <- !app_assoc. econstructor; eauto; [unfold base in *; lia|]. now apply follow_app. }
    split; [rewrite B6; rewrite !app_length in *; lia|]. split; [auto|]. split; [auto|].
    split; [|auto]. rewrite B9. unfold entries_of, list_sum. cbn [map fold_right]. lia.
  - apply ret_ok in H. destruct H as (-> & H). injection H as -> -> ->. cbn [r_type r_hl r_hash r_platform].
    exists (enc_toc t ++ rh ++ gap ++ ph ++ id), t, [].
    split; [auto|]. split; [auto|]. split; [intros y; apply LAY; rewrite <- T5; constructor|].
    split; [auto|]. split; [lia|]. split; [lia|]. split; [|auto]. unfold entries_of, list_sum. cbn [map fold_right]. change (u8 th 0) with (t_entries (parse_toc th)). lia.
Qed.

Variable hash : N -> list N -> list N.
Variable sig_ok : list N -> list N -> bool.
Variable eng : nat -> bool.

Lemma verify_signature_ok : forall ty sig s s' d, verify_signature hash sig_ok eng ty sig s = (s', Ok d) ->
  d = hash ty (snd s) /\ sig_ok d sig = true /\ sig <> [].
Proof.
  intros ty sig s s' d H. unfold verify_signature in H. steps. apply engine_ok in P0. apply hashed_ok in P1. destruct P1 as (-> & ->).
  apply engine_ok in P2. rewrite P0 in *. split; [auto|]. split; [auto|]. intros ->. match goal with H : (0 <? _) = true |- _ => discriminate H end.
Qed.

(** What is known of the flash after a successful verification of the current formats. *)
Definition verified (D : list N) (m : mstate) (t : toc) (ts : list toc) : Prop :=
  N.of_nat (length D) + h_sig (s_header m) = h_length (s_header m) /\
  read_at rd (c_addr c) D /\
  layout (s_ext m) D (s_header m) (s_type m) (s_hl m) t (s_root m) (s_platform m) ts /\
  s_entries m = N.of_nat (entries_of t ts) /\
  s_digest m = Some (hash (N.land (h_sigtype (s_header m)) 7 + 1) D) /\
  sig_ok (hash (N.land (h_sigtype (s_header m)) 7 + 1) D) (s_sig m) = true.

Definition common (s0 : mstate) (m : mstate) : Prop :=
  s_valid m = true /\ h_magic (s_header m) <> 65535 /\
  s_ext m = (h_magic (s_header m) =? c_v3 c) /\
  0 < h_sig (s_header m) <= c_max_sig c /\ 12 + h_sig (s_header m) <= h_length (s_header m) < 65536 /\ N.of_nat (length (s_sig m)) = h_sig (s_header m) /\
  read_at rd (c_addr c + h_length (s_header m) - h_sig (s_header m)) (s_sig m).

Lemma read_header_ok : forall s s' h raw, read_header c rd s = (s', Ok (h, raw)) ->
  raw = enc_header h (u8 raw 11) /\ h = parse_header raw /\ read_at rd (c_addr c) raw /\ h_magic h <> 65535 /\
  (h_magic h = c_v1 c \/ h_magic h = c_v2 c \/ h_magic h = c_v3 c) /\ 12 + h_sig h <= h_length h < 65536 /\ header_fits h.
Proof.
  intros s s' h raw H. unfold read_header in H. cbv zeta in H.
  apply bind_ok in H. destruct H as (s1 & l & R & H). apply (flash_read_ok c rd Hrd) in R. destruct R as (R1 & R2 & R3 & R4 & R5).
  apply bind_ok in H. destruct H as (s2 & ? & K & H). apply check_ok in K. destruct K as (K & ->).
  apply bind_ok in H. destruct H as (s3 & ? & K2 & H). apply check_ok in K2. destruct K2 as (K2 & ->).
  apply bind_ok in H. destruct H as (s4 & ? & K3 & H). apply check_ok in K3. destruct K3 as (K3 & ->).
  apply ret_ok in H. destruct H as (-> & H). injection H as -> ->. unfold HEADER_LEN, NOT_SUPPORTED in *.
  assert (length l = 12%nat) by lia. rewrite enc_parse_header by auto. split; [auto|]. split; [auto|]. split; [auto|].
  split; [lia|]. split; [lia|]. assert (h_length (parse_header l) < 65536) by (apply u16_small; auto). split; [lia|].
  unfold header_fits, parse_header. cbn [h_length h_magic h_id h_sig h_sigtype]. auto 8 using u8_small, u16_small, u32_small.
Qed.

Lemma verify_ok : forall s0 s s' m, verify hash sig_ok c rd eng s0 s = (s', Ok m) ->
  common s0 m /\
  (if negb (c_v1 c =? 65535) && (h_magic (s_header m) =? c_v1 c)
   then exists D, N.of_nat (length D) + h_sig (s_header m) = h_length (s_header m) /\ read_at rd (c_addr c) D /\
        s_digest m = Some (hash (N.land (h_sigtype (s_header m)) 7 + 1) D) /\
        sig_ok (hash (N.land (h_sigtype (s_header m)) 7 + 1) D) (s_sig m) = true
   else (exists D t ts, verified D m t ts) /\ N.of_nat (length (s_platform m)) <= c_max_id c).
Proof.
  intros s0 s s' m H. unfold verify in H. cbv zeta in H.
  apply bind_ok in H. destruct H as (s1 & [h raw] & R & H). apply read_header_ok in R. destruct R as (R1 & R2 & R3 & R4 & R5 & R6 & R7).
  apply bind_ok in H. destruct H as (s2 & ? & K & H). apply check_ok in K. destruct K as (K & ->).
  apply bind_ok in H. destruct H as (s3 & ? & K2 & H). apply check_ok in K2. destruct K2 as (K2 & ->).
  apply bind_ok in H. destruct H as (s4 & sig & SG & H).
  assert (SS: N.of_nat (length sig) = h_sig h /\ read_at rd (c_addr c + h_length h - h_sig h) sig).
  { destruct (N.eqb_spec (h_sig h) 0) as [Z|Z]; [apply ret_ok in SG; destruct SG as (_ & ->); split; [now rewrite Z|apply read_at_nil]|].
    apply (flash_read_ok c rd Hrd) in SG. tauto. }
  destruct SS as (S1 & S2). clear SG. unfold NOT_SUPPORTED in *.
  destruct (negb (c_v1 c =? 65535) && (h_magic h =? c_v1 c)) eqn:V1.
  - apply bind_ok in H. destruct H as (s5 & ? & SH & H). apply start_hash_ok in SH.
    apply bind_ok in H. destruct H as (s6 & ? & K3 & H). apply check_ok in K3. destruct K3 as (K3 & ->).
    apply bind_ok in H. destruct H as (s7 & ? & HR & H). apply (hash_range_ok c rd Hrd) in HR. destruct HR as (D & D1 & D2 & D3 & D4 & D5).
    apply bind_ok in H. destruct H as (s8 & d & VS & H). apply verify_signature_ok in VS. destruct VS as (VS1 & VS2 & VS3).
    apply ret_ok in H. destruct H as (-> & ->). unfold common. cbn [s_header s_entries s_root s_type s_hl s_digest s_valid s_ext s_sig s_platform].
    rewrite V1. assert (0 < h_sig h) by (destruct sig; [congruence|cbn [length] in S1; lia]).
    rewrite SH in D1. cbn in D1. rewrite D1 in VS1. subst d.
    split; [repeat split; auto; lia|]. exists D. split; [lia|]. auto.
  - apply bind_ok in H. destruct H as (s5 & ? & SH & H). apply start_hash_ok in SH.
    apply bind_ok in H. destruct H as (s6 & ? & UP & H). apply update_ok in UP. rewrite SH in UP. cbn [app] in UP.
    apply bind_ok in H. destruct H as (s7 & [[next count] r] & VT & H).
    apply bind_ok in H. destruct H as (s8 & ? & HR & H). apply (hash_range_ok c rd Hrd) in HR. destruct HR as (tl & D1 & D2 & D3 & D4 & D5).
    apply bind_ok in H. destruct H as (s9 & d & VS & H). apply verify_signature_ok in VS. destruct VS as (VS1 & VS2 & VS3).
    apply ret_ok in H. destruct H as (-> & ->). unfold common, verified. cbn [s_header s_entries s_root s_type s_hl s_digest s_valid s_ext s_sig s_platform].
    rewrite V1. assert (0 < h_sig h) by (destruct sig; [congruence|cbn [length] in S1; lia]).
    unfold HEADER_LEN in VT.
    destruct (verify_tocs_ok _ _ _ _ _ _ _ h (u8 raw 11) VT) as (B & t & ts & B1 & B2 & B3 & B4 & B5 & B6 & B7 & B8); [congruence|auto|].
    destruct (forward c (c_addr c + h_length h - h_sig h) next) as (F1 & F2); try lia.
    assert (LR: length raw = 12%nat) by (rewrite R1; reflexivity).
    split; [repeat split; auto; lia|]. split; [|auto].
    assert (DD: snd s8 = raw ++ B ++ tl) by (rewrite D1, B1, UP; now rewrite app_assoc). rewrite DD in VS1.
    exists (raw ++ B ++ tl), t, ts. subst d.
    split; [rewrite !app_length; lia|].
    split. { apply read_at_app; [auto|]. rewrite LR. apply read_at_app; [exact B2|]. change (N.of_nat 12) with 12. rewrite <- B4. exact D4. }
    split; [rewrite <- UP; apply B3|]. auto.
Qed.
End Verify.
