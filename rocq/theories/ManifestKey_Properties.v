(** C68: which keys manifests are accepted with. *)
From Coq Require Import List NArith Bool Arith Lia.
From Verif Require Import Base ManifestKey_Model ManifestKey_Spec ManifestKey_Proofs.
Import ListNotations.

(** Every manifest that is accepted was signed with a key of the root key that the device has: the default key of the firmware or the key in the
    keystore.  Once a trusted key is in the keystore, keys with lower ids are never accepted again, whatever manifests are activated, calls fail or
    firmware is started, as long as the keystore does not lose its key. *)
Theorem C68_no_rollback : forall plen slen endorsed key_ok sig_ok st l1 l2 s1 s2 id1 p1 k1 digest sig w,
  Forall (shipped plen slen endorsed key_ok) (l1 ++ l2) -> Forall lossless l2 ->
  fst (run plen slen endorsed key_ok sig_ok (St st None) l1) = s1 -> store s1 = Some k1 -> trusted plen slen endorsed key_ok id1 p1 k1 ->
  fst (run plen slen endorsed key_ok sig_ok s1 l2) = s2 ->
  snd (step plen slen endorsed key_ok sig_ok s2 (Verify digest sig w)) = Accepted ->
  exists id p k, trusted plen slen endorsed key_ok id p k /\ (id1 <= id)%N /\ sig_ok p digest sig = true /\
    (store s2 = Some k \/ exists r, up s2 = Some r /\ k = dflt r).
Proof.
  intros plen slen endorsed key_ok sig_ok st l1 l2 s1 s2 id1 p1 k1 digest sig w F LO R1 E1 T1 R2 A. apply Forall_app in F. destruct F as [F1 F2].
  assert (I1 : Inv plen slen endorsed key_ok s1) by (rewrite <- R1; apply run_inv; [exact F1|exact Logic.I]).
  assert (I2 : Inv plen slen endorsed key_ok s2) by (rewrite <- R2; apply run_inv; [exact F2|exact I1]).
  destruct (trusted_parts _ _ _ _ _ _ _ T1) as (ID1 & _ & TK1 & _).
  destruct (run_mono plen slen endorsed key_ok sig_ok l2 s1 k1 F2 LO I1 E1 TK1) as (k' & E' & T' & O'). rewrite R2 in E'.
  destruct (accepted plen slen endorsed key_ok sig_ok s2 digest sig w I2 A) as (r & k & U & TK & SG & WH & MIN).
  exists (key_id k), (pub plen k), k. pose proof (MIN k' E' T'). split; [exact TK|]. split; [lia|]. split; [exact SG|].
  destruct WH as [->|WH]; [right; exists r; auto|left; exact WH].
Qed.
Print Assumptions C68_no_rollback.

(** Even when the keystore loses its key, only trusted keys are accepted. *)
Theorem C68_trusted : forall plen slen endorsed key_ok sig_ok st l s digest sig w,
  Forall (shipped plen slen endorsed key_ok) l -> fst (run plen slen endorsed key_ok sig_ok (St st None) l) = s ->
  snd (step plen slen endorsed key_ok sig_ok s (Verify digest sig w)) = Accepted ->
  exists id p k, trusted plen slen endorsed key_ok id p k /\ sig_ok p digest sig = true /\
    (store s = Some k \/ exists r, up s = Some r /\ k = dflt r).
Proof.
  intros plen slen endorsed key_ok sig_ok st l s digest sig w F R A.
  assert (I1 : Inv plen slen endorsed key_ok s) by (rewrite <- R; apply run_inv; [exact F|exact Logic.I]).
  destruct (accepted plen slen endorsed key_ok sig_ok s digest sig w I1 A) as (r & k & U & TK & SG & WH & _).
  exists (key_id k), (pub plen k), k. split; [exact TK|]. split; [exact SG|]. destruct WH as [->|WH]; [right; exists r; auto|left; exact WH].
Qed.
Print Assumptions C68_trusted.

(** Once a manifest signed with the default key is activated without a failure, older keys are revoked for good. *)
Theorem C68_revoked : forall plen slen endorsed key_ok sig_ok st l1 l2 s1 s2 r id p digest sig digest' sig' w,
  Forall (shipped plen slen endorsed key_ok) (l1 ++ l2) -> Forall lossless l2 ->
  fst (run plen slen endorsed key_ok sig_ok (St st None) l1) = s1 -> up s1 = Some r ->
  trusted plen slen endorsed key_ok id p (dflt r) -> sig_ok p digest sig = true ->
  fst (run plen slen endorsed key_ok sig_ok s1 (Activate digest sig (act_works Written) :: l2)) = s2 ->
  snd (step plen slen endorsed key_ok sig_ok s2 (Verify digest' sig' w)) = Accepted ->
  exists id' p' k', trusted plen slen endorsed key_ok id' p' k' /\ (id <= id')%N /\ sig_ok p' digest' sig' = true.
Proof.
  intros plen slen endorsed key_ok sig_ok st l1 l2 s1 s2 r id p digest sig digest' sig' w F LO R1 U T SG R2 A.
  apply Forall_app in F. destruct F as [F1 F2].
  assert (I1 : Inv plen slen endorsed key_ok s1) by (rewrite <- R1; apply run_inv; [exact F1|exact Logic.I]).
  destruct (trusted_parts _ _ _ _ _ _ _ T) as (ID & PB & TD & _).
  pose proof (activated plen slen endorsed key_ok sig_ok s1 r digest sig I1 U ltac:(rewrite PB; exact SG)) as (k & E & TK & O).
  cbn [run] in R2. pose proof (step_inv plen slen endorsed key_ok sig_ok s1 (Activate digest sig (act_works Written)) Logic.I I1) as I2.
  destruct (step plen slen endorsed key_ok sig_ok s1 (Activate digest sig (act_works Written))) as [s1' x1]. cbn [fst] in E, I2.
  destruct (run_mono plen slen endorsed key_ok sig_ok l2 s1' k F2 LO I2 E TK) as (k' & E' & T' & O').
  pose proof (run_inv plen slen endorsed key_ok sig_ok l2 s1' F2 I2) as I3.
  destruct (run plen slen endorsed key_ok sig_ok s1' l2) as [s2' xs]. cbn [fst] in *. subst s2'.
  destruct (accepted plen slen endorsed key_ok sig_ok s2 digest' sig' w I3 A) as (r' & k'' & U' & TK' & SG' & WH & MIN).
  exists (key_id k''), (pub plen k''), k''. pose proof (MIN k' E' T'). split; [exact TK'|]. split; [lia|exact SG'].
Qed.
Print Assumptions C68_revoked.

(** After a start without failures exactly the key in the keystore and, if it is newer, the default key are accepted, and the keystore is
    unchanged.  If there is no trusted key in the keystore, exactly the default key is accepted, and it is in the keystore from then on. *)
Theorem C68_keys : forall plen slen endorsed key_ok sig_ok s id p d digest sig,
  trusted plen slen endorsed key_ok id p d ->
  let '(s', x) := step plen slen endorsed key_ok sig_ok s (Boot d boot_works) in
  let y := snd (step plen slen endorsed key_ok sig_ok s' (Verify digest sig all_works)) in
  x = Booted /\ (y = Accepted \/ y = BadSignature) /\
  (forall idk pk k, store s = Some k -> trusted plen slen endorsed key_ok idk pk k ->
     store s' = Some k /\ (y = Accepted <-> sig_ok pk digest sig = true \/ ((idk < id)%N /\ sig_ok p digest sig = true))) /\
  ((forall idk pk k, store s = Some k -> ~ trusted plen slen endorsed key_ok idk pk k) ->
     store s' = Some d /\ (y = Accepted <-> sig_ok p digest sig = true)).
Proof.
  intros plen slen endorsed key_ok sig_ok s id p d digest sig T. destruct (trusted_parts _ _ _ _ _ _ _ T) as (ID & PB & TD & LD & _).
  assert (CASES : (exists k, store s = Some k /\ tkey plen slen endorsed key_ok k) \/
                  forall k idk pk, store s = Some k -> ~ trusted plen slen endorsed key_ok idk pk k).
  { destruct (store s) as [k|]; [|right; discriminate]. destruct (length k =? 4 + plen + slen) eqn:L.
    - destruct (verify_key plen slen endorsed key_ok k true) eqn:V.
      + apply Nat.eqb_eq in L. left. exists k. split; [reflexivity|]. exact (good_trusted _ _ _ _ k true L V).
      + right. intros k' idk pk E X. injection E as <-. apply trusted_parts in X. destruct X as (_ & _ & _ & _ & X). congruence.
      + right. intros k' idk pk E X. injection E as <-. apply trusted_parts in X. destruct X as (_ & _ & _ & _ & X). congruence.
    - right. intros k' idk pk E X. injection E as <-. apply trusted_parts in X. destruct X as (_ & _ & _ & X & _). apply Nat.eqb_neq in L. congruence. }
  destruct CASES as [(k & E & TK)|NT].
  - cbn [step]. rewrite (boot_stored plen slen endorsed key_ok s id p d _ _ k T E TK). cbn [step up snd]. unfold verify, with_default.
    cbn [stored default_valid dflt all_works v_set1 v_verify1 v_set2 v_verify2 andb negb]. rewrite PB. split; [reflexivity|].
    split; [destruct (sig_ok (pub plen k) digest sig), (negb (id <=? key_id k)%N), (sig_ok p digest sig); auto|]. split.
    + intros idk pk k0 E0 T0. rewrite E in E0. injection E0 as <-. destruct (trusted_parts _ _ _ _ _ _ _ T0) as (IK & PK & _). rewrite PK, IK.
      split; [reflexivity|]. destruct (sig_ok pk digest sig); [split; auto|]. destruct (id <=? idk)%N eqn:LE; cbn [negb].
      * apply N.leb_le in LE. split; [discriminate|]. intros [X|[X _]]; [discriminate|lia].
      * apply N.leb_gt in LE. destruct (sig_ok p digest sig); split; auto; try discriminate. intros [X|[_ X]]; discriminate.
    + intros NT. exfalso. exact (NT _ _ _ E TK).
  - cbn [step]. rewrite (boot_fresh plen slen endorsed key_ok s id p d T NT). cbn [step up snd]. unfold verify, with_default.
    cbn [stored default_valid dflt all_works v_set2 v_verify2 andb negb]. rewrite PB. split; [reflexivity|].
    split; [destruct (sig_ok p digest sig); auto|]. split.
    + intros idk pk k0 E0 T0. exfalso. exact (NT _ _ _ E0 T0).
    + intros _. split; [reflexivity|]. destruct (sig_ok p digest sig); split; auto; discriminate.
Qed.
Print Assumptions C68_keys.

(** If a manifest that verifies is activated and its key can be checked, a firmware update is allowed only when any new firmware will accept
    that manifest, even if the key could not be saved at the activation. *)
Theorem C68_update : forall plen slen endorsed key_ok sig_ok st l1 l2 s1 s2 digest sig sv w id d p,
  Forall (shipped plen slen endorsed key_ok) l1 -> fst (run plen slen endorsed key_ok sig_ok (St st None) l1) = s1 ->
  snd (step plen slen endorsed key_ok sig_ok s1 (Verify digest sig all_works)) = Accepted -> Forall calm l2 ->
  fst (run plen slen endorsed key_ok sig_ok s1 (Activate digest sig (act_works sv) :: l2)) = s2 ->
  snd (step plen slen endorsed key_ok sig_ok s2 (UpdateStart w)) = Allowed -> trusted plen slen endorsed key_ok id p d ->
  snd (run plen slen endorsed key_ok sig_ok s2 [UpdateStart w; Boot d boot_works; Verify digest sig all_works]) = [Allowed; Booted; Accepted].
Proof.
  intros plen slen endorsed key_ok sig_ok st l1 l2 s1 s2 digest sig sv w id d p F R1 A C R2 AL T.
  assert (I1 : Inv plen slen endorsed key_ok s1) by (rewrite <- R1; apply run_inv; [exact F|exact Logic.I]).
  pose proof (activate_keeps plen slen endorsed key_ok sig_ok s1 digest sig sv I1 A) as K.
  pose proof (step_inv plen slen endorsed key_ok sig_ok s1 (Activate digest sig (act_works sv)) Logic.I I1) as I2.
  cbn [run] in R2. destruct (step plen slen endorsed key_ok sig_ok s1 (Activate digest sig (act_works sv))) as [s1' x1]. cbn [fst] in K, I2.
  pose proof (calm_keeps plen slen endorsed key_ok sig_ok l2 s1' digest sig C K) as K2.
  pose proof (run_inv plen slen endorsed key_ok sig_ok l2 s1' (calm_shipped plen slen endorsed key_ok l2 C) I2) as I3.
  destruct (run plen slen endorsed key_ok sig_ok s1' l2) as [s2' xs]. cbn [fst] in *. subst s2'.
  destruct (allowed_stored plen slen endorsed key_ok sig_ok s2 digest sig w I3 K2 AL) as (k & E & TK & SG).
  cbn [run]. destruct (step plen slen endorsed key_ok sig_ok s2 (UpdateStart w)) as [s3 x3]. cbn [fst snd] in E, AL. subst x3.
  assert (B : step plen slen endorsed key_ok sig_ok s3 (Boot d boot_works) = boot plen slen endorsed key_ok s3 d boot_works) by reflexivity.
  rewrite B, (boot_stored plen slen endorsed key_ok s3 id p d _ _ k T E TK). cbn [step up]. unfold verify.
  cbn [stored all_works v_set1 v_verify1 andb negb]. rewrite SG. reflexivity.
Qed.
Print Assumptions C68_update.

(** ** Examples and refutations *)
(** Public keys of one byte, signatures of two; the root key signs with [7; the public key]; manifests are signed with [their digest; the
    public key]. *)
Definition ex_end (b sg : list N) : bool := match rev b, sg with x :: _, [7%N; y] => (x =? y)%N | _, _ => false end.
Definition ex_sig (p dg sg : list N) : bool := match p, dg, sg with [x], [m], [m'; y] => (m =? m')%N && (x =? y)%N | _, _, _ => false end.
Definition ex_key (id p : N) : list N := [id; 0; 0; 0; p; 7; p]%N.
Lemma ex_trusted : forall id p, trusted 1 2 ex_end (fun _ => true) id [p] (ex_key id p).
Proof.
  intros id p. exists [id; 0; 0; 0]%N, [7; p]%N. do 2 (split; [reflexivity|]). split; [cbn [le_value]; lia|]. do 2 (split; [reflexivity|]).
  split; [|reflexivity]. cbn. apply N.eqb_refl.
Qed.
Notation ex_run := (run 1 2 ex_end (fun _ => true) ex_sig).

(** The device starts with key 1 and then with firmware that has key 2.  Both are accepted until a manifest with key 2 is activated.  Going back
    to the old firmware does not bring back key 1. *)
Example ex_revoked : snd (ex_run (St None None)
    [Boot (ex_key 1 50) boot_works; Verify [9%N] [9; 50]%N all_works; Activate [9%N] [9; 50]%N (act_works Written); UpdateStart Written;
     Boot (ex_key 2 60) boot_works; Verify [9%N] [9; 50]%N all_works; Verify [8%N] [8; 60]%N all_works; Activate [8%N] [8; 60]%N (act_works Written);
     Verify [9%N] [9; 50]%N all_works; Boot (ex_key 1 50) boot_works; Verify [9%N] [9; 50]%N all_works; Verify [8%N] [8; 60]%N all_works])
  = [Booted; Accepted; Silent; Allowed; Booted; Accepted; Accepted; Silent; BadSignature; Booted; BadSignature; Accepted].
Proof. vm_compute. reflexivity. Qed.

(** A key that could not be saved blocks the update until it is saved. *)
Example ex_blocked : snd (ex_run (St (Some (ex_key 1 50)) None)
    [Boot (ex_key 2 60) boot_works; Verify [8%N] [8; 60]%N all_works; Activate [8%N] [8; 60]%N (act_works Kept); UpdateStart Kept;
     UpdateStart Written; Boot (ex_key 3 70) boot_works; Verify [8%N] [8; 60]%N all_works])
  = [Booted; Accepted; Silent; Blocked; Allowed; Booted; Accepted].
Proof. vm_compute. reflexivity. Qed.

(** A key that cannot be checked when a manifest is activated is not saved, and no update is blocked: without the condition that the check
    works, an update is allowed although the new firmware rejects the active manifest. *)
Theorem C68_check_failure_refuted : exists digest sig a,
  snd (ex_run (St (Some (ex_key 1 50)) None)
    [Boot (ex_key 2 60) boot_works; Verify digest sig all_works; Activate digest sig a; UpdateStart Written;
     Boot (ex_key 3 70) boot_works; Verify digest sig all_works])
  = [Booted; Accepted; Silent; Allowed; Booted; BadSignature] /\ a_save a = Written.
Proof. exists [8%N], [8; 60]%N, (AWorks false true true true Written). split; [vm_compute; reflexivity|reflexivity]. Qed.
Print Assumptions C68_check_failure_refuted.

(** That the key could not be saved is forgotten when the device restarts: an update is then allowed although the new firmware rejects the active
    manifest. *)
Theorem C68_restart_refuted : exists digest sig,
  snd (ex_run (St (Some (ex_key 1 50)) None)
    [Boot (ex_key 2 60) boot_works; Verify digest sig all_works; Activate digest sig (act_works Kept); UpdateStart Kept;
     Boot (ex_key 2 60) boot_works; Verify digest sig all_works; UpdateStart Written;
     Boot (ex_key 3 70) boot_works; Verify digest sig all_works])
  = [Booted; Accepted; Silent; Blocked; Booted; Accepted; Allowed; Booted; BadSignature].
Proof. exists [8%N], [8; 60]%N. vm_compute. reflexivity. Qed.
Print Assumptions C68_restart_refuted.

(** If the keystore loses its key, say because power fails while a key is saved, revoked keys are accepted again by firmware that has them as
    default key. *)
Theorem C68_lost_key_refuted : exists digest sig,
  snd (ex_run (St (Some (ex_key 2 60)) None)
    [Boot (ex_key 1 50) boot_works; Verify digest sig all_works; Boot (ex_key 3 70) boot_works; Activate [5%N] [5; 70]%N (act_works Lost);
     Boot (ex_key 1 50) boot_works; Verify digest sig all_works])
  = [Booted; BadSignature; Booted; Silent; Booted; Accepted].
Proof. exists [8%N], [8; 50]%N. vm_compute. reflexivity. Qed.
Print Assumptions C68_lost_key_refuted.
