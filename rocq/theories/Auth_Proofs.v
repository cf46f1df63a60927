(** The token handler follows the events. *)
From Coq Require Import List NArith Lia Bool Arith.
From Coq Require Import ZifyBool ZifyNat ZifyN.
From Verif Require Import Base BufferUtil_Model BufferUtil_Proofs KeyWrap_Proofs Mctp_Proofs Auth_Model Auth_Spec.
Import ListNotations.

Definition total (c : cfg) : nat := c_data c + c_nonce c + c_sig c.

Record tok_ok (c : cfg) (s : tok) : Prop := TokOk { t_len : length (k_buf s) = total c; t_bytes : bytes_ok (k_buf s) }.

Lemma bytes_ok_le32 : forall x, bytes_ok (le32 x).
Proof. intros x. repeat constructor; apply N.mod_lt; discriminate. Qed.

Lemma bytes_ok_zeros : forall n, bytes_ok (repeat 0%N n).
Proof. intros n. apply Forall_forall. intros x I0. apply repeat_spec in I0. subst x. reflexivity. Qed.

Lemma nonce_ok : forall n r, bytes_ok r -> bytes_ok (firstn n (r ++ repeat 0%N n)) /\ length (firstn n (r ++ repeat 0%N n)) = n.
Proof.
  intros n r H. split.
  - apply bytes_ok_firstn. apply Forall_app. split; [exact H|apply bytes_ok_zeros].
  - rewrite firstn_length, app_length, repeat_length. lia.
Qed.

Lemma splice0 : forall (l a : list N), splice l 0 a = a ++ skipn (length a) l.
Proof. intros. unfold splice. cbn. reflexivity. Qed.

(** Making a token. *)
Lemma new_token_spec : forall c s data v now s' r, tok_ok c s -> bytes_ok data ->
  match g_rng v with Some l => bytes_ok l | None => True end -> match g_sign v with Some l => bytes_ok l | None => True end ->
  new_token c s data v now = (s', r) ->
  match r with
  | GenTooLong => s' = s /\ c_data c < length data
  | GenFailed => tok_ok c s' /\ k_len s' = 0
  | Generated t => tok_ok c s' /\ length data <= c_data c /\ k_len s' = length t /\ t = firstn (k_len s') (k_buf s') /\
      (c_validity c <> 0%N -> k_exp s' = (now + c_validity c)%N) /\
      exists rnd sg, g_rng v = Some rnd /\ g_sign v = Some sg /\
        t = data ++ repeat 0%N (c_data c - length data) ++ firstn (c_nonce c) (rnd ++ repeat 0%N (c_nonce c)) ++ firstn (c_sig c) sg
  end.
Proof.
  intros c s data v now s' r [L B] BD BR BS H. unfold new_token in H. unfold total in *.
  destruct (Nat.ltb_spec (c_data c) (length data)) as [G|G]; [injection H as <- <-; auto|]. cbv zeta in H.
  set (b0 := splice (splice (k_buf s) 0 (repeat 0%N (c_data c))) 0 data) in *.
  assert (L0': length (splice (k_buf s) 0 (repeat 0%N (c_data c))) = length (k_buf s)) by (apply length_splice; rewrite repeat_length; lia).
  assert (L0: length b0 = length (k_buf s)) by (unfold b0; rewrite length_splice; lia).
  assert (B0: bytes_ok b0).
  { unfold b0. apply bytes_ok_splice; [|exact BD]. apply bytes_ok_splice; [exact B|apply bytes_ok_zeros]. }
  destruct (g_rng v) as [rnd|]; [|injection H as <- <-; split; [constructor; unfold total; cbn [k_buf]; [lia|exact B0]|reflexivity]].
  destruct (nonce_ok (c_nonce c) rnd BR) as (BN & LN). set (nn := firstn (c_nonce c) (rnd ++ repeat 0%N (c_nonce c))) in *.
  set (b1 := splice b0 (c_data c) nn) in *.
  assert (L1: length b1 = length (k_buf s)) by (unfold b1; rewrite length_splice; lia).
  assert (B1: bytes_ok b1) by (apply bytes_ok_splice; auto).
  destruct (g_sign v) as [sg|]; [|injection H as <- <-; split; [constructor; unfold total; cbn [k_buf]; [lia|exact B1]|reflexivity]].
  assert (LS: length (firstn (c_sig c) sg) <= c_sig c) by (rewrite firstn_length; lia).
  set (b2 := splice b1 (c_data c + c_nonce c) (firstn (c_sig c) sg)) in *.
  assert (L2: length b2 = length (k_buf s)) by (unfold b2; rewrite length_splice; lia).
  assert (B2: bytes_ok b2) by (apply bytes_ok_splice; [auto|now apply bytes_ok_firstn]).
  destruct (negb (c_validity c =? 0)%N && negb (g_clock v)).
  - injection H as <- <-. split; [constructor; unfold total; cbn [k_buf]; [lia|exact B2]|reflexivity].
  - injection H as <- <-. cbn [k_len k_buf k_exp].
    assert (FL: length (firstn (c_data c + c_nonce c + length (firstn (c_sig c) sg)) b2) = c_data c + c_nonce c + length (firstn (c_sig c) sg))
      by (rewrite firstn_length; lia).
    split; [constructor; unfold total; cbn [k_buf]; [lia|exact B2]|]. split; [exact G|]. split; [auto|]. split; [reflexivity|]. split.
    + intros V. destruct (N.eqb_spec (c_validity c) 0); [contradiction|reflexivity].
    + exists rnd, sg. split; [auto|]. split; [auto|]. fold nn.
      assert (E0: firstn (c_data c) b0 = data ++ repeat 0%N (c_data c - length data)).
      { unfold b0. rewrite splice0. rewrite firstn_app. rewrite firstn_all2 by lia. f_equal.
        rewrite splice0. rewrite skipn_app. rewrite firstn_app.
        assert (SR: skipn (length data) (repeat 0%N (c_data c)) = repeat 0%N (c_data c - length data)).
        { replace (c_data c) with (length data + (c_data c - length data)) at 1 by lia. rewrite repeat_app, skipn_app, repeat_length, Nat.sub_diag.
          rewrite skipn_all2 by (rewrite repeat_length; lia). reflexivity. }
        rewrite SR, repeat_length. rewrite firstn_all2 by (rewrite repeat_length; lia).
        rewrite Nat.sub_diag. cbn. apply app_nil_r. }
      unfold b2, splice at 1. rewrite firstn_app. rewrite firstn_all2 by (rewrite firstn_length; lia).
      rewrite (firstn_length (c_data c + c_nonce c) b1), Nat.min_l by lia.
      rewrite firstn_app. rewrite (firstn_all2 (firstn (c_sig c) sg)) by lia.
      replace (c_data c + c_nonce c + length (firstn (c_sig c) sg) - (c_data c + c_nonce c) - length (firstn (c_sig c) sg)) with 0 by lia.
      cbn [firstn]. rewrite app_nil_r.
      unfold b1, splice at 1. rewrite app_assoc. rewrite firstn_app.
      rewrite firstn_all2 by (rewrite app_length, firstn_length; lia). rewrite app_length, (firstn_length (c_data c) b0), Nat.min_l by lia.
      rewrite LN, Nat.sub_diag. cbn [firstn]. rewrite app_nil_r, E0. rewrite <- !app_assoc. reflexivity.
Qed.

(** Checking data against a token. *)
Section Verify.
Variable sig_ok : list N -> list N -> bool.

Lemma verify_valid : forall c s data o a v now, tok_ok c s -> bytes_ok data -> k_len s <= length (k_buf s) ->
  (verify_data sig_ok c s data o a v now = Valid <->
   k_len s <> 0 /\ o + k_len s + a < length data /\ window o (k_len s) data = firstn (k_len s) (k_buf s) /\
   sig_ok (firstn (o + k_len s + a) data) (skipn (o + k_len s + a) data) = true /\
   (c_validity c = 0%N \/ ((now < k_exp s)%N /\ r_clock v = true)) /\ r_engine v = true).
Proof.
  intros c s data o a v now [L B] BD KL. unfold verify_data. cbv zeta.
  set (n := o + k_len s + a).
  destruct (negb (k_len s =? 0) && (k_len s <? length data) && (o <? length data) && (a <? length data) && (n <? length data)) eqn:C.
  2: { split; [discriminate|]. intros (H1 & H2 & _). subst n. exfalso. lia. }
  assert (n < length data /\ k_len s <> 0) as (NL & K0) by lia.
  assert (BC: buffer_compare 0xff (Some (skipn o data)) (Some (k_buf s)) (k_len s) = true <-> window o (k_len s) data = firstn (k_len s) (k_buf s)).
  { change 0xff%N with (N.ones 8). apply buffer_compare_correct.
    - now apply bytes_ok_skipn.
    - exact B.
    - rewrite skipn_length. lia.
    - exact KL. }
  destruct (N.eqb_spec (c_validity c) 0) as [V|V]; cbn [negb andb].
  - destruct (buffer_compare 0xff (Some (skipn o data)) (Some (k_buf s)) (k_len s)); cbn [negb].
    + assert (W := proj1 BC eq_refl). destruct (r_engine v); cbn [negb].
      * destruct (sig_ok (firstn n data) (skipn n data)); split; try discriminate; try tauto. intros (_ & _ & _ & Q & _). discriminate.
      * split; [discriminate|]. intros (_ & _ & _ & _ & _ & Q). discriminate.
    + split; [discriminate|]. intros (_ & _ & Q & _). apply BC in Q. discriminate.
  - destruct (r_clock v); cbn [negb].
    + destruct (N.leb_spec (k_exp s) now).
      * split; [discriminate|]. intros (_ & _ & _ & _ & [Q|(Q & _)] & _); [contradiction|lia].
      * destruct (buffer_compare 0xff (Some (skipn o data)) (Some (k_buf s)) (k_len s)); cbn [negb].
        -- assert (W := proj1 BC eq_refl). destruct (r_engine v); cbn [negb].
           ++ destruct (sig_ok (firstn n data) (skipn n data)); split; try discriminate; try tauto. intros (_ & _ & _ & Q & _). discriminate.
           ++ split; [discriminate|]. intros (_ & _ & _ & _ & _ & Q). discriminate.
        -- split; [discriminate|]. intros (_ & _ & Q & _). apply BC in Q. discriminate.
    + split; [discriminate|]. intros (_ & _ & _ & _ & [Q|(_ & Q)] & _); [contradiction|discriminate].
Qed.

Lemma format_offset : forall f d o, token_offset f d = Some o -> o = token_at f /\ aad_length f d = Some (follows f d) /\ well_formed f d.
Proof.
  clear sig_ok. intros f d o H. destruct f; cbn [token_offset aad_length token_at follows well_formed] in *.
  - destruct (Nat.eqb_spec (length d) 0) as [E|E]; [discriminate|]. injection H as <-. split; [auto|]. split; [auto|].
    intros ->. now apply E.
  - destruct (header_ok d) eqn:HO; [|discriminate]. unfold word in *. destruct (Nat.eqb_spec (N.to_nat (le_value (window 0 2 d))) 0); [discriminate|].
    injection H as <-. unfold header_ok, word in HO. split; [auto|]. split; [auto|]. lia.
Qed.

Lemma format_complete : forall f d, well_formed f d -> token_offset f d = Some (token_at f) /\ aad_length f d = Some (follows f d).
Proof.
  clear sig_ok. intros f d H. destruct f; cbn [token_offset aad_length token_at follows well_formed] in *.
  - destruct d; [congruence|]. auto.
  - unfold header_ok, word. destruct H as (H1 & H2 & H3).
    assert ((4 <=? length d) && (4 + N.to_nat (le_value (window 0 2 d)) + N.to_nat (le_value (window 2 2 d)) <=? length d) = true) as -> by lia.
    destruct (Nat.eqb_spec (N.to_nat (le_value (window 0 2 d))) 0); [contradiction|]. auto.
Qed.

(** The state agrees with the events. *)
Definition holds (c : cfg) (s : tok) (p : option (list N * N)) : Prop :=
  match p with
  | None => k_len s = 0
  | Some (t, t0) => k_len s = length t /\ t = firstn (k_len s) (k_buf s) /\ c_data c + c_nonce c <= length t /\
      (c_validity c <> 0%N -> k_exp s = (t0 + c_validity c)%N)
  end.

Variable c : cfg.
Variable ops : list oper.
Hypothesis nonce_pos : 0 < c_nonce c.
Notation authorize_operation := (authorize_operation sig_ok c ops).
Notation run := (run sig_ok c ops).

Lemma holds_small : forall s p, tok_ok c s -> holds c s p -> k_len s <= length (k_buf s).
Proof.
  intros s p _ H. destruct p as [[t t0]|]; cbn [holds] in H; [|lia].
  destruct H as (H1 & H2 & _). rewrite H1 in H2 |- *. rewrite H2 at 1. rewrite firstn_length. lia.
Qed.

Lemma request_step : forall s p id d g v now s' r a, tok_ok c s -> holds c s p -> op_ok (Request id d g v) ->
  authorize_operation s id d g v now = (s', r, a) ->
  tok_ok c s' /\ holds c s' (observe ops p (Event id d r a now)).
Proof.
  intros s p id d g v now s' r a T P (OD & OR & OS) H. unfold Auth_Model.authorize_operation in H.
  cbn [observe]. unfold operation. destruct (find (fun o => (o_id o =? id)%N) ops) as [o|] eqn:F; [|injection H as <- <- _; auto].
  destruct (authorize sig_ok c (o_auth o) s d g v now) as [s1 rep] eqn:E. assert (s1 = s') by congruence. assert (r = Some rep) by congruence.
  subst s1 r. clear H. destruct (o_auth o) as [| | |h|]; cbn [authorize] in E; try (injection E as <- <-; auto).
  unfold challenge_authorize in E. destruct d as [d|].
  - destruct (token_offset (h_fmt h) d) as [q|] eqn:TO; [|injection E as <- <-; auto].
    destruct (format_offset _ _ _ TO) as (_ & -> & _) in E.
    destruct (verify_data sig_ok c s d q (follows (h_fmt h) d) v now); injection E as <- <-; auto.
    destruct T as [T1 T2]. split; [constructor; auto|]. reflexivity.
  - destruct (new_token c s (match h_tag h with Some t => le32 t | None => [] end) g now) as [s1 gn] eqn:G.
    assert (BD: bytes_ok (match h_tag h with Some t => le32 t | None => [] end)).
    { destruct (h_tag h); [apply bytes_ok_le32|constructor]. }
    pose proof (new_token_spec _ _ _ _ _ _ _ T BD OR OS G) as Q. destruct gn as [| |t]; injection E as <- <-.
    + destruct Q as (-> & _). auto.
    + tauto.
    + destruct Q as (Q1 & Q2 & Q3 & Q4 & Q5 & rnd & sg & _ & _ & Q6). split; [auto|]. cbn [holds].
      split; [auto|]. split; [auto|]. split; [|auto]. rewrite Q6, !app_length, repeat_length.
      destruct (nonce_ok (c_nonce c) [] (Forall_nil _)) as (_ & LN). rewrite firstn_length, app_length, repeat_length. lia.
Qed.

Lemma run_holds : forall l s now s' t es0 es, tok_ok c s -> holds c s (active ops es0) -> Forall op_ok l ->
  run s now l = (s', t, es) -> tok_ok c s' /\ holds c s' (active ops (es0 ++ es)).
Proof.
  induction l as [|o l IH]; intros s now s' t es0 es T P OK H; cbn [Auth_Model.run] in H.
  - injection H as <- <- <-. now rewrite app_nil_r.
  - inversion OK as [|x y O1 O2]; subst. destruct o as [id d g v|ms].
    + destruct (authorize_operation s id d g v now) as [[s1 r] a] eqn:E.
      destruct (run s1 now l) as [[s2 t2] es'] eqn:R. injection H as <- <- <-.
      destruct (request_step _ _ _ _ _ _ _ _ _ _ T P O1 E) as (T1 & P1).
      assert (P2: holds c s1 (active ops (es0 ++ [Event id d r a now]))) by (unfold active; rewrite fold_left_app; exact P1).
      specialize (IH _ _ _ _ _ _ T1 P2 O2 R). now rewrite <- app_assoc in IH.
    + exact (IH _ _ _ _ _ _ T P O2 H).
Qed.

(** The state before a request. *)
Lemma run_split : forall l s now s' t es e1 id d r a u e2, run s now l = (s', t, es) -> Forall op_ok l ->
  es = e1 ++ Event id d r a u :: e2 ->
  exists l1 g v s1 s2, Forall op_ok l1 /\ op_ok (Request id d g v) /\ run s now l1 = (s1, u, e1) /\
    authorize_operation s1 id d g v u = (s2, r, a).
Proof.
  induction l as [|o l IH]; intros s now s' t es e1 id d r a u e2 H OK E; cbn [Auth_Model.run] in H.
  - injection H as <- <- <-. destruct e1; discriminate.
  - inversion OK as [|x y O1 O2]; subst x y. destruct o as [id0 d0 g v|ms].
    + destruct (authorize_operation s id0 d0 g v now) as [[s1 r0] a0] eqn:E0.
      destruct (run s1 now l) as [[s2 t2] es'] eqn:R. injection H as <- <- <-.
      destruct e1 as [|x e1].
      * cbn in E. injection E as -> -> -> -> -> <-. exists [], g, v, s, s1. repeat split; auto; apply O1.
      * cbn in E. assert (x = Event id0 d0 r0 a0 now) by congruence. assert (E3: es' = e1 ++ Event id d r a u :: e2) by congruence. subst x.
        destruct (IH _ _ _ _ _ _ _ _ _ _ _ _ R O2 E3) as (l1 & g1 & v1 & sa & sb & K1 & K2 & K3 & K4).
        exists (Request id0 d0 g v :: l1), g1, v1, sa, sb. split; [constructor; auto|]. split; [exact K2|]. split; [|exact K4].
        cbn [Auth_Model.run]. rewrite E0, K3. reflexivity.
    + destruct (IH _ _ _ _ _ _ _ _ _ _ _ _ H O2 E) as (l1 & g1 & v1 & sa & sb & K1 & K2 & K3 & K4).
      exists (Wait ms :: l1), g1, v1, sa, sb. split; [constructor; auto; exact Logic.I|]. split; [exact K2|]. split; [|exact K4]. exact K3.
Qed.
End Verify.
