(** Proofs about manifest keys. *)
From Coq Require Import List NArith Bool Arith Lia.
From Verif Require Import Base ManifestKey_Model ManifestKey_Spec DeviceUnlock_Parse_Proofs.
Import ListNotations.

Section Proofs.
Variables plen slen : nat.
Variables endorsed : list N -> list N -> bool.
Variable key_ok : list N -> bool.
Variable sig_ok : list N -> list N -> list N -> bool.
Notation trustedk := (ManifestKey_Spec.trusted plen slen endorsed key_ok).
Definition tkey (k : list N) : Prop := trustedk (key_id k) (ManifestKey_Model.pub plen k) k.
Notation boot := (boot plen slen endorsed key_ok).
Notation step := (step plen slen endorsed key_ok sig_ok).
Notation run := (run plen slen endorsed key_ok sig_ok).
Notation verify_key := (verify_key plen slen endorsed key_ok).
Notation pub := (pub plen).

(** ** Keys *)
Lemma trusted_parts : forall id p k, trustedk id p k -> key_id k = id /\ pub k = p /\ tkey k /\ length k = 4 + plen + slen /\ verify_key k true = Good.
Proof. clear sig_ok.
  intros id p k (h & sg & -> & LH & EH & LP & LS & E & O).
  assert (S0 : key_id (h ++ p ++ sg) = id).
  { unfold key_id. rewrite <- LH, firstn_app, firstn_all, Nat.sub_diag, firstn_O, app_nil_r. exact EH. }
  assert (SP : pub (h ++ p ++ sg) = p).
  { unfold ManifestKey_Model.pub. rewrite <- LH, <- LP. apply window_mid. }
  split; [exact S0|]. split; [exact SP|]. split; [|split].
  - unfold tkey. rewrite S0, SP. exists h, sg. repeat split; assumption.
  - rewrite !app_length. lia.
  - unfold ManifestKey_Model.verify_key. cbn [negb]. rewrite SP.
    assert (S1 : signature plen slen (h ++ p ++ sg) = sg).
    { unfold signature. rewrite <- LH, <- LP, <- LS. pose proof (window_mid (h ++ p) sg []) as W. rewrite app_nil_r in W.
      rewrite app_length, <- app_assoc in W. exact W. }
    assert (S2 : body slen (h ++ p ++ sg) = h ++ p).
    { unfold body. rewrite app_assoc, app_length. replace (length (h ++ p) + length sg - slen) with (length (h ++ p)) by lia.
      rewrite firstn_app, firstn_all, Nat.sub_diag, firstn_O, app_nil_r. reflexivity. }
    rewrite S1, S2, E, O. reflexivity.
Qed.
Lemma trusted_good : forall k, tkey k -> verify_key k true = Good.
Proof. clear sig_ok. intros k T. apply (trusted_parts _ _ _ T). Qed.
Lemma trusted_length : forall k, tkey k -> length k = 4 + plen + slen.
Proof. clear sig_ok. intros k T. apply (trusted_parts _ _ _ T). Qed.
Lemma good_trusted : forall k w, length k = 4 + plen + slen -> verify_key k w = Good -> tkey k.
Proof. clear sig_ok.
  intros k w L V. unfold ManifestKey_Model.verify_key in V. destruct w; cbn [negb] in V; [|discriminate].
  destruct (endorsed (body slen k) (signature plen slen k)) eqn:E; cbn [andb] in V; [|discriminate]. destruct (key_ok (pub k)) eqn:O; [|discriminate].
  assert (W : window 4 plen k ++ window (4 + plen) slen k = skipn 4 k).
  { unfold window. rewrite <- (firstn_skipn plen (skipn 4 k)) at 2. f_equal. rewrite skipn_skipn. replace (plen + 4) with (4 + plen) by lia.
    apply firstn_all2. rewrite skipn_length. lia. }
  exists (firstn 4 k), (window (4 + plen) slen k). unfold ManifestKey_Model.pub in *. rewrite W, firstn_skipn. split; [reflexivity|].
  split; [rewrite firstn_length; lia|]. split; [reflexivity|]. split; [unfold window; rewrite firstn_length, skipn_length; lia|].
  split; [unfold window; rewrite firstn_length, skipn_length; lia|]. split; [|exact O]. rewrite <- E. f_equal.
  unfold body, window. replace (length k - slen) with (4 + plen) by lia. rewrite <- (firstn_skipn 4 k) at 3.
  rewrite firstn_app, firstn_firstn. rewrite firstn_length. replace (Nat.min (4 + plen) 4) with 4 by lia. do 2 f_equal. lia.
Qed.

(** ** Invariant *)
Definition Inv (s : state) : Prop :=
  match up s with
  | None => True
  | Some r => tkey (dflt r) /\
    match stored r with
    | Some k => store s = Some k /\ tkey k /\ default_valid r = negb (key_id (dflt r) <=? key_id k)%N /\ save_failed r = false
    | None => default_valid r = true /\ (save_failed r = false -> store s = Some (dflt r)) /\
              (forall k, store s = Some k -> tkey k -> (key_id k <= key_id (dflt r))%N)
    end
  end.

Lemma boot_inv : forall s d w, tkey d -> Inv (fst (boot s d w)).
Proof. clear sig_ok.
  intros s d w T. unfold ManifestKey_Model.boot. unfold ManifestKey_Model.verify_key at 1.
  destruct (b_default w); cbn [negb]; [|exact Logic.I]. pose proof (trusted_good d T) as G. unfold ManifestKey_Model.verify_key in G. cbn [negb] in G.
  rewrite G. destruct (b_load w); cbn [negb]; [|exact Logic.I].
  assert (NN : Inv (fst (if saved (b_save w) then if b_lock w then (St (save_key (store s) d (b_save w)) (Some (Ram d None true false)), Booted)
     else (St (save_key (store s) d (b_save w)) None, BootFailed) else (St (save_key (store s) d (b_save w)) None, BootFailed)))).
  { destruct (b_save w) eqn:BS; cbn [saved]; try exact Logic.I. destruct (b_lock w); [|exact Logic.I].
    unfold Inv. cbn [fst up dflt stored default_valid save_failed store save_key].
    split; [exact T|]. split; [reflexivity|]. split; [reflexivity|]. intros k E _. injection E as <-. lia. }
  destruct (store s) as [k|] eqn:ST; [|exact NN].
  destruct (length k =? length d) eqn:LL; [|exact NN]. destruct (verify_key k (b_stored w)) eqn:V; [|exact NN|exact Logic.I].
  destruct (b_lock w); [|exact Logic.I]. unfold Inv. cbn [fst up dflt stored default_valid save_failed store].
  split; [exact T|]. split; [reflexivity|]. split; [|split; reflexivity].
  apply Nat.eqb_eq in LL. rewrite (trusted_length d T) in LL. exact (good_trusted k _ LL V).
Qed.

Lemma step_inv : forall s o, shipped plen slen endorsed key_ok o -> Inv s -> Inv (fst (step s o)).
Proof.
  intros s o SH I0. destruct o as [d w|dg sg w|dg sg w|w]; cbn [ManifestKey_Model.step].
  - apply boot_inv. destruct SH as (id & p & T). apply (trusted_parts _ _ _ T).
  - destruct (up s); exact I0.
  - destruct (up s) as [r|] eqn:U; [|exact I0]. unfold Inv in I0. rewrite U in I0. destruct I0 as [T I0].
    unfold activate. destruct (stored r) as [k|] eqn:SR.
    + destruct I0 as (E & TK & DV & SF). destruct (default_valid r) eqn:D.
      * destruct (negb (a_hash w && a_sig w && a_set w && a_verify w)). { unfold Inv. cbn [fst up store]. rewrite SR, D. auto. }
        destruct (sig_ok (pub (dflt r)) dg sg); [|unfold Inv; cbn [fst up store]; rewrite SR, D; auto].
        unfold Inv. cbn [fst up store dflt stored default_valid save_failed]. split; [exact T|]. split; [reflexivity|].
        split; [destruct (a_save w); cbn [saved negb save_key]; congruence|].
        intros k' E' _. destruct (a_save w); cbn [save_key] in E'; try discriminate; try (injection E' as <-; lia).
        rewrite E in E'. injection E' as <-. symmetry in DV. apply negb_true_iff in DV. apply N.leb_gt in DV. lia.
      * rewrite SF. unfold Inv. cbn [fst up store]. rewrite SR, D. auto.
    + destruct I0 as (D & F & B). destruct (save_failed r) eqn:SF; [|unfold Inv; cbn [fst up store]; rewrite SR, SF; auto].
      unfold Inv. cbn [fst up store dflt stored default_valid save_failed]. split; [exact T|]. split; [exact D|].
      split; [destruct (a_save w); cbn [saved negb save_key]; congruence|].
      intros k' E' T'. destruct (a_save w); cbn [save_key] in E'; try discriminate; try (injection E' as <-; lia). apply B; assumption.
  - destruct (up s) as [r|] eqn:U; [|exact I0]. unfold Inv in I0. rewrite U in I0. destruct I0 as [T I0].
    unfold update_start. destruct (save_failed r) eqn:SF.
    + destruct (stored r) as [k|] eqn:SR; [destruct I0 as (_ & _ & _ & X); discriminate|]. destruct I0 as (D & F & B).
      destruct w; cbn [saved]; unfold Inv; cbn [fst up store dflt stored default_valid save_failed save_key]; rewrite ?SR, ?SF;
        (split; [exact T|]; split; [exact D|]; split; [congruence|]); intros k' E' T'; try discriminate; try (injection E' as <-; lia).
      apply B; assumption.
    + unfold Inv. cbn [fst up store]. rewrite SF. auto.
Qed.

Lemma run_inv : forall l s, Forall (shipped plen slen endorsed key_ok) l -> Inv s -> Inv (fst (run s l)).
Proof.
  induction l as [|o l IH]; intros s F I0; [exact I0|]. inversion F as [|? ? F1 F2]; subst. cbn [ManifestKey_Model.run].
  pose proof (step_inv s o F1 I0) as I1. destruct (step s o) as [s1 r1]. cbn [fst] in I1. pose proof (IH s1 F2 I1) as I2.
  destruct (run s1 l) as [s2 r2]. exact I2.
Qed.

(** ** The stored key is never replaced by an older one *)
Lemma step_mono : forall s o k, shipped plen slen endorsed key_ok o -> lossless o -> Inv s -> store s = Some k -> tkey k ->
  exists k', store (fst (step s o)) = Some k' /\ tkey k' /\ (key_id k <= key_id k')%N.
Proof.
  intros s o k SH LO I0 E T. assert (KK : exists k', Some k = Some k' /\ tkey k' /\ (key_id k <= key_id k')%N) by (exists k; repeat split; [exact T|lia]).
  destruct o as [d w|dg sg w|dg sg w|w]; cbn [ManifestKey_Model.step].
  - destruct SH as (id & p & TD). destruct (trusted_parts _ _ _ TD) as (_ & _ & TD' & LD & GD).
    unfold ManifestKey_Model.boot. destruct (b_default w); [rewrite GD|cbn; rewrite E; exact KK].
    destruct (b_load w); cbn [negb]; [|cbn; rewrite E; exact KK]. rewrite E, (trusted_length k T), LD, Nat.eqb_refl.
    destruct (b_stored w); [rewrite (trusted_good k T)|cbn; exact KK]. destruct (b_lock w); cbn; exact KK.
  - destruct (up s); cbn [fst]; rewrite E; exact KK.
  - destruct (up s) as [r|] eqn:U; [|cbn [fst]; rewrite E; exact KK]. unfold Inv in I0. rewrite U in I0. destruct I0 as [TD I0].
    unfold activate. cbn [lossless] in LO. destruct (stored r) as [k0|] eqn:SR.
    + destruct I0 as (E0 & TK & DV & SF). destruct (default_valid r) eqn:D.
      * destruct (negb (a_hash w && a_sig w && a_set w && a_verify w)); [cbn [fst store]; rewrite E; exact KK|].
        destruct (sig_ok (pub (dflt r)) dg sg); [|cbn [fst store]; rewrite E; exact KK].
        cbn [fst store]. rewrite E in E0. injection E0 as <-. symmetry in DV. apply negb_true_iff in DV. apply N.leb_gt in DV.
        destruct (a_save w); cbn [save_key]; try congruence; try (rewrite E; exact KK); exists (dflt r); repeat split; try exact TD; lia.
      * rewrite SF. cbn [fst store]. rewrite E. exact KK.
    + destruct I0 as (D & F & B). destruct (save_failed r); [|cbn [fst store]; rewrite E; exact KK]. cbn [fst store]. pose proof (B k E T) as LE.
      destruct (a_save w); cbn [save_key]; try congruence; try (rewrite E; exact KK); exists (dflt r); repeat split; try exact TD; lia.
  - destruct (up s) as [r|] eqn:U; [|cbn [fst]; rewrite E; exact KK]. unfold Inv in I0. rewrite U in I0. destruct I0 as [TD I0].
    unfold update_start. cbn [lossless] in LO. destruct (save_failed r) eqn:SF; [|cbn [fst store]; rewrite E; exact KK].
    destruct (stored r) as [k0|] eqn:SR; [destruct I0 as (_ & _ & _ & X); discriminate|]. destruct I0 as (D & F & B). pose proof (B k E T) as LE.
    destruct w; cbn [saved fst store save_key]; try congruence; try (rewrite E; exact KK); exists (dflt r); repeat split; try exact TD; lia.
Qed.

Lemma run_mono : forall l s k, Forall (shipped plen slen endorsed key_ok) l -> Forall lossless l -> Inv s -> store s = Some k -> tkey k ->
  exists k', store (fst (run s l)) = Some k' /\ tkey k' /\ (key_id k <= key_id k')%N.
Proof.
  induction l as [|o l IH]; intros s k F FL I0 E T; [exists k; repeat split; [exact E|exact T|cbn; lia]|].
  inversion F as [|? ? F1 F2]; subst. inversion FL as [|? ? L1 L2]; subst. cbn [ManifestKey_Model.run].
  pose proof (step_inv s o F1 I0) as I1. destruct (step_mono s o k F1 L1 I0 E T) as (k1 & E1 & T1 & O1).
  destruct (step s o) as [s1 r1]. cbn [fst] in I1, E1. destruct (IH s1 k1 F2 L2 I1 E1 T1) as (k2 & E2 & T2 & O2).
  destruct (run s1 l) as [s2 r2]. exists k2. cbn [fst] in *. repeat split; [exact E2|exact T2|lia].
Qed.

(** ** What is accepted *)
Lemma accepted : forall s dg sg w, Inv s -> snd (step s (Verify dg sg w)) = Accepted ->
  exists r k, up s = Some r /\ tkey k /\ sig_ok (pub k) dg sg = true /\ (k = dflt r \/ store s = Some k) /\
    (forall k0, store s = Some k0 -> tkey k0 -> (key_id k0 <= key_id k)%N).
Proof.
  intros s dg sg w I0 A. cbn [ManifestKey_Model.step] in A. destruct (up s) as [r|] eqn:U; [|discriminate]. cbn [snd] in A.
  unfold Inv in I0. rewrite U in I0. destruct I0 as [TD I0]. unfold verify in A. exists r.
  assert (WD : with_default plen sig_ok r dg sg w = Accepted -> sig_ok (pub (dflt r)) dg sg = true).
  { unfold with_default. destruct (negb (v_set2 w && v_verify2 w)); [discriminate|]. destruct (sig_ok (pub (dflt r)) dg sg); [reflexivity|discriminate]. }
  destruct (stored r) as [k|] eqn:SR.
  - destruct I0 as (E & TK & DV & SF). destruct (negb (v_set1 w && v_verify1 w)); [discriminate|].
    destruct (sig_ok (pub k) dg sg) eqn:SG.
    + exists k. repeat split; auto. intros k0 E0 _. rewrite E in E0. injection E0 as <-. lia.
    + destruct (default_valid r); [|discriminate]. exists (dflt r). repeat split; auto.
      intros k0 E0 _. rewrite E in E0. injection E0 as <-. symmetry in DV. apply negb_true_iff in DV. apply N.leb_gt in DV. lia.
  - destruct I0 as (D & F & B). rewrite D in A. exists (dflt r). repeat split; auto.
Qed.

(** ** After a clean start *)
Lemma boot_stored : forall s id p d idk pk k, trustedk id p d -> store s = Some k -> trustedk idk pk k ->
  boot s d boot_works = (St (Some k) (Some (Ram d (Some k) (negb (id <=? idk)%N) false)), Booted).
Proof. clear sig_ok.
  intros s id p d idk pk k TD E TK. destruct (trusted_parts _ _ _ TD) as (ID & _ & _ & LD & GD). destruct (trusted_parts _ _ _ TK) as (IK & _ & _ & LK & GK).
  unfold ManifestKey_Model.boot. cbn [boot_works b_default b_load b_stored b_save b_lock negb]. rewrite GD, E, LD, LK, Nat.eqb_refl, GK, ID, IK. reflexivity.
Qed.
Lemma boot_fresh : forall s id p d, trustedk id p d -> (forall k idk pk, store s = Some k -> ~ trustedk idk pk k) ->
  boot s d boot_works = (St (Some d) (Some (Ram d None true false)), Booted).
Proof. clear sig_ok.
  intros s id p d TD NT. destruct (trusted_parts _ _ _ TD) as (ID & _ & _ & LD & GD).
  unfold ManifestKey_Model.boot. cbn [boot_works b_default b_load b_stored b_save b_lock negb saved save_key]. rewrite GD.
  destruct (store s) as [k|] eqn:E; [|reflexivity]. destruct (length k =? length d) eqn:LL; [|reflexivity].
  apply Nat.eqb_eq in LL. rewrite LD in LL. destruct (verify_key k true) eqn:V; [|reflexivity|].
  - exfalso. exact (NT k _ _ eq_refl (good_trusted k true LL V)).
  - exfalso. unfold ManifestKey_Model.verify_key in V. cbn [negb] in V. destruct (endorsed _ _ && _); discriminate.
Qed.

(** ** After an activation *)
Lemma activated : forall s r dg sg, Inv s -> up s = Some r -> sig_ok (pub (dflt r)) dg sg = true ->
  exists k, store (fst (step s (Activate dg sg (act_works Written)))) = Some k /\ tkey k /\ (key_id (dflt r) <= key_id k)%N.
Proof.
  intros s r dg sg I0 U SG. cbn [ManifestKey_Model.step]. rewrite U. unfold Inv in I0. rewrite U in I0. destruct I0 as [T I0].
  unfold activate. cbn [act_works a_hash a_sig a_set a_verify a_save andb negb saved save_key]. destruct (stored r) as [k|].
  - destruct I0 as (E & TK & DV & SF). destruct (default_valid r).
    + rewrite SG. exists (dflt r). cbn [fst store]. repeat split; [exact T|lia].
    + rewrite SF. exists k. cbn [fst store]. repeat split; [exact E|exact TK|]. symmetry in DV. apply negb_false_iff in DV. apply N.leb_le in DV. exact DV.
  - destruct I0 as (D & F & B). exists (dflt r). destruct (save_failed r); cbn [fst store]; repeat split; try exact T; try lia. apply F. reflexivity.
Qed.

(** ** An update keeps the active manifest *)
Definition Keeps (dg sg : list N) (s : state) : Prop :=
  exists r, up s = Some r /\
    match stored r with
    | Some k => sig_ok (pub k) dg sg = true /\ save_failed r = false
    | None => sig_ok (pub (dflt r)) dg sg = true
    end.

Lemma activate_keeps : forall s dg sg w, Inv s -> snd (step s (Verify dg sg all_works)) = Accepted ->
  Keeps dg sg (fst (step s (Activate dg sg (act_works w)))).
Proof.
  intros s dg sg w I0 A. cbn [ManifestKey_Model.step] in A |- *. destruct (up s) as [r|] eqn:U; [|discriminate]. cbn [snd] in A.
  unfold Inv in I0. rewrite U in I0. destruct I0 as [TD I0]. unfold verify, with_default in A. cbn [all_works v_set1 v_verify1 v_set2 v_verify2 andb negb] in A.
  unfold activate. cbn [act_works a_hash a_sig a_set a_verify a_save andb negb]. destruct (stored r) as [k|] eqn:SR.
  - destruct I0 as (E & TK & DV & SF). destruct (default_valid r) eqn:D.
    + destruct (sig_ok (pub (dflt r)) dg sg) eqn:SD.
      * eexists. split; [reflexivity|]. cbn [stored dflt]. exact SD.
      * eexists. split; [reflexivity|]. rewrite SR. split; [|exact SF]. destruct (sig_ok (pub k) dg sg); [reflexivity|discriminate].
    + rewrite SF. eexists. split; [reflexivity|]. rewrite SR. split; [|exact SF]. destruct (sig_ok (pub k) dg sg); [reflexivity|discriminate].
  - destruct I0 as (D & F & B). rewrite D in A.
    assert (SD : sig_ok (pub (dflt r)) dg sg = true) by (destruct (sig_ok (pub (dflt r)) dg sg); [reflexivity|discriminate]).
    destruct (save_failed r); eexists; (split; [reflexivity|]); cbn [stored dflt]; rewrite ?SR; exact SD.
Qed.

Lemma calm_keeps : forall l s dg sg, Forall calm l -> Keeps dg sg s -> Keeps dg sg (fst (run s l)).
Proof.
  induction l as [|o l IH]; intros s dg sg F K; [exact K|]. inversion F as [|? ? C F2]; subst. cbn [ManifestKey_Model.run].
  assert (K1 : Keeps dg sg (fst (step s o))).
  { destruct K as (r & U & M). destruct o as [d w|dg' sg' w|dg' sg' w|w]; try destruct C; cbn [ManifestKey_Model.step]; rewrite U.
    - exists r. split; [exact U|exact M].
    - unfold update_start. destruct (save_failed r) eqn:SF; [|eexists; split; [reflexivity|]; rewrite SF; exact M].
      destruct (stored r) eqn:SR; [destruct M; discriminate|].
      destruct (saved w); eexists; (split; [reflexivity|]); cbn [stored dflt]; rewrite ?SR; exact M. }
  destruct (step s o) as [s1 r1]. cbn [fst] in K1. pose proof (IH s1 dg sg F2 K1) as K2. destruct (run s1 l). exact K2.
Qed.

Lemma calm_shipped : forall l, Forall calm l -> Forall (shipped plen slen endorsed key_ok) l.
Proof. clear sig_ok. intros l F. eapply Forall_impl; [|exact F]. intros [d w|dg sg w|dg sg w|w] C; try destruct C; exact Logic.I. Qed.

Lemma allowed_stored : forall s dg sg w, Inv s -> Keeps dg sg s -> snd (step s (UpdateStart w)) = Allowed ->
  exists k, store (fst (step s (UpdateStart w))) = Some k /\ tkey k /\ sig_ok (pub k) dg sg = true.
Proof.
  intros s dg sg w I0 (r & U & M) A. cbn [ManifestKey_Model.step] in *. rewrite U in *. unfold Inv in I0. rewrite U in I0. destruct I0 as [TD I0].
  unfold update_start in *. destruct (save_failed r) eqn:SF.
  - destruct (stored r) as [k|]; [destruct M; discriminate|]. destruct w; cbn [saved snd] in A; try discriminate.
    exists (dflt r). cbn [saved save_key fst store]. auto.
  - destruct (stored r) as [k|].
    + destruct I0 as (E & TK & _). exists k. cbn [fst store]. destruct M. auto.
    + destruct I0 as (D & F & B). exists (dflt r). cbn [fst store]. auto.
Qed.
End Proofs.
