(** * C79: keys are loaded as they were saved. *)
From Coq Require Import List NArith Lia Bool Arith ZifyBool ZifyNat ZifyN.
From Verif Require Import Base Flash_Base FlashUtil_Model FlashStore_Model FlashStore_Spec FlashStore_History_Proofs FlashStore_Properties
  Keystore_Model Keystore_Spec.
Import ListNotations.
Local Open Scope N_scope.

Definition to_op (o : key_op) : fs_op :=
  match o with Save id k iv => OWrite id k iv | Erase id => OErase id | EraseAll => OEraseAll end.

Lemma key_run_history : forall sha encrypt p s l m c,
  fs_history (fs_step sha encrypt p s) m c (map (fun x => (fst x, to_op (snd x))) l) =
  (fst (key_run sha encrypt p s m l),
   fold_left (fun c x => spec_step c (to_op (fst x)) (snd x)) (snd (key_run sha encrypt p s m l)) c).
Proof.
  intros sha encrypt p s. induction l as [|[f o] l IH]; intros m c; [reflexivity|].
  cbn [map fst snd fs_history key_run].
  assert (E : fs_step sha encrypt p s m f (to_op o) = key_step sha encrypt p s m f o) by (destruct o; reflexivity).
  rewrite E. destruct (key_step sha encrypt p s m f o) as [m1 r]. rewrite IH.
  destruct (key_run sha encrypt p s m1 l) as [m2 t]. reflexivity.
Qed.

Lemma key_is_content : forall id t k, key_is id t k ->
  fold_left (fun c x => spec_step c (to_op (fst x)) (snd x)) t (fun _ => Unknown) id =
    match k with Some k => Stored k | None => Erased end.
Proof.
  intros id t k H. induction H; rewrite fold_left_app; cbn [fold_left fst snd to_op spec_step know]; rewrite ?N.eqb_refl; try reflexivity.
  destruct o as [i d iv|i|]; cbn [to_op spec_step concerns] in *.
  - destruct (i =? id); [|exact IHkey_is]. destruct H as [H|H]; [discriminate|]. destruct r; try discriminate; exact IHkey_is.
  - destruct (i =? id); [|exact IHkey_is]. destruct H as [H|H]; [discriminate|]. destruct r; try discriminate; exact IHkey_is.
  - destruct H as [H|H]; [discriminate|]. destruct r; try discriminate; exact IHkey_is.
Qed.

(** Loading is reading with a buffer that is always large enough. *)
Lemma load_read : forall sha decrypt p s f m id,
  let x := load_key sha decrypt p s f true m id in
  match fs_read sha decrypt p f s m id (fs_max s) with
  | inl d => exists n, get_data_length f s m id = inl n /\ x = mkLoaded KOk (Some d) (Some n) 1 0
  | inr e => l_status x = read_error e /\ l_key x = None \/ (exists e', get_data_length f s m id = inr e' /\ e = e' /\ x = mkLoaded (length_error e) None None 0 0)
  end.
Proof.
  intros sha decrypt p s f m id. cbn zeta. unfold load_key, get_data_length.
  assert (SAME : forall n, get_data_length f s m id = inl n -> fs_read sha decrypt p f s m id n = fs_read sha decrypt p f s m id (fs_max s)).
  { intros n. unfold get_data_length, fs_read, read_common. destruct (fs_blocks s <=? id); [discriminate|].
    destruct (fs_variable s) eqn:V; cbn [negb andb].
    - unfold read_header. destruct (f_read f (block_addr s id)); [discriminate|].
      destruct (negb (m (block_addr s id + 1) =? HEADER_MARKER)).
      + destruct (fs_max s <? le_value (img_read m (block_addr s id) 2)) eqn:Z; [discriminate|]. intros Q.
        assert (n = le_value (img_read m (block_addr s id) 2)) as -> by congruence. rewrite N.ltb_irrefl, Z. reflexivity.
      + destruct ((m (block_addr s id) <? HEADER_MIN_LENGTH) || (fs_max s <? le_value (img_read m (block_addr s id + 2) 2))) eqn:Z; [discriminate|].
        intros Q. apply orb_false_iff in Z. destruct Z as (_ & Z).
        assert (n = le_value (img_read m (block_addr s id + 2) 2)) as -> by congruence. rewrite N.ltb_irrefl, Z. reflexivity.
    - intros Q. assert (n = fs_max s) as -> by congruence. reflexivity. }
  fold (get_data_length f s m id). destruct (get_data_length f s m id) as [n|e'] eqn:G.
  - cbn [negb]. rewrite (SAME n eq_refl). destruct (fs_read sha decrypt p f s m id (fs_max s)); [eauto|cbn; auto].
  - assert (R : fs_read sha decrypt p f s m id (fs_max s) = inr e').
    { unfold get_data_length in G. unfold fs_read, read_common. destruct (fs_blocks s <=? id); [congruence|].
      destruct (fs_variable s); [|discriminate]. cbn [negb andb]. destruct (read_header f s m (block_addr s id)) as [[? ?]|]; [discriminate|congruence]. }
    rewrite R. right. eauto.
Qed.

Lemma stored_length : forall f s m id buf al e ct ex, read_common f s m id buf al e = inl (ct, ex) ->
  get_data_length f s m id = inl (N.of_nat (length ct)).
Proof.
  intros f s m id buf al e ct ex. unfold read_common, get_data_length. destruct (fs_blocks s <=? id); [discriminate|].
  destruct (negb (fs_variable s) && (buf <? fs_max s)); [discriminate|].
  destruct (fs_variable s); [destruct (read_header f s m (block_addr s id)) as [[h n]|]; [|discriminate]; destruct (buf <? n); [discriminate|]|];
  (destruct (negb (al =? 0) && _); [discriminate|]; destruct (f_read f _); [discriminate|]; destruct (_ && _); [discriminate|];
   intros Q; f_equal; match type of Q with inl (?a, ?b) = _ => assert (ct = a) as -> by congruence end; rewrite length_img_read, N2Nat.id; reflexivity).
Qed.

Lemma same_error : forall f s m id e, get_data_length f s m id = inr e -> length_error e = read_error e.
Proof.
  intros f s m id e. unfold get_data_length, read_header. destruct (fs_blocks s <=? id); [intros Q; now assert (e = FsUnsupportedId) as -> by congruence|].
  destruct (fs_variable s); [|discriminate]. destruct (f_read f _); [intros Q; now assert (e = FsFlash FuReadErr) as -> by congruence|].
  destruct (negb _); destruct (_ : bool) in |- *; intros Q; try discriminate; destruct e; try reflexivity; discriminate.
Qed.

(** After any history of calls, with any faults of the flash during any of
    them: a key that was saved last is loaded as it was saved, with its
    length, and a key that was erased last is reported as missing (for stores
    of keys of any length). *)
Theorem C79_loaded : forall sha encrypt decrypt p s m0 l f id,
  engines_ok sha encrypt decrypt -> fs_ok s (N.of_nat (extra_length p)) -> fs_overhead s = 0 ->
  Forall call_ok (map snd l) -> no_read_faults f -> id < fs_blocks s ->
  let '(m, calls) := key_run sha encrypt p s m0 l in
  (forall k, key_is id calls (Some k) ->
     load_key sha decrypt p s f true m id = mkLoaded KOk (Some k) (Some (N.of_nat (length k))) 1 0) /\
  (fs_variable s = true -> key_is id calls None ->
     load_key sha decrypt p s f true m id = mkLoaded KNoKey None None 0 0).
Proof.
  intros sha encrypt decrypt p s m0 l f id ENG OK NO CO NF Hid.
  assert (CO' : Forall fs_op_ok (map snd (map (fun x => (fst x, to_op (snd x))) l))).
  { rewrite map_map. cbn [snd]. rewrite Forall_map in *. eapply Forall_impl; [|exact CO]. intros (g & [i k iv|i|]); cbn; auto. }
  pose proof (history_spec sha encrypt decrypt ENG p s OK NO _ m0 (fun _ => Unknown) CO' (fun _ _ => Logic.I)) as H.
  rewrite key_run_history in H. destruct (key_run sha encrypt p s m0 l) as [m calls]. cbn [fst snd] in H. destruct H as (H & _).
  specialize (H id Hid). split.
  - intros k K. rewrite (key_is_content _ _ _ K) in H. cbn beta iota in H.
    pose proof (load_read sha decrypt p s f m id) as LR. cbn zeta in LR.
    assert (SZ : N.of_nat (length k) <= fs_max s) by (destruct H as ((_ & Z & _) & _); exact Z).
    rewrite (read_holds sha encrypt decrypt ENG p s OK NO f m id k (fs_max s) NF Hid H SZ) in LR.
    destruct LR as (n & G & ->). f_equal. f_equal.
    pose proof (read_holds sha encrypt decrypt ENG p s OK NO f m id k (fs_max s) NF Hid H SZ) as R.
    destruct H as ((Z1 & Z2 & Z3) & BY & ct & extra & P & W).
    destruct (protects_length sha encrypt decrypt ENG p s OK NO _ _ _ P) as (L1 & L2).
    assert (RC : read_common f s m id (fs_max s) 0 (length extra) = inl (ct, extra)).
    { pose proof (ok_max16 _ _ OK).
      assert (ct <> []) by (intros ->; destruct k; [now elim Z1|discriminate]).
      apply (FlashStore_Read_Proofs.read_stored s _ OK); auto; try lia. }
    apply stored_length in RC. rewrite RC in G. assert (n = N.of_nat (length ct)) as -> by congruence. now rewrite L1.
  - intros V K. rewrite (key_is_content _ _ _ K) in H. cbn beta iota in H.
    destruct (read_erased sha encrypt decrypt p s OK NO f m id (fs_max s) NF Hid V H) as (_ & HD).
    unfold has_data_stored in HD. unfold load_key. destruct (get_data_length f s m id) as [n|[]]; try discriminate. reflexivity.
Qed.
Print Assumptions C79_loaded.

(** Whatever is in the flash and whatever goes wrong: the caller gets a key
    and one buffer to free, or no key and nothing to free. *)
Theorem C79_no_leak : forall sha decrypt p s f memory m id,
  let x := load_key sha decrypt p s f memory m id in
  (l_status x = KOk /\ l_key x <> None /\ l_length x <> None /\ l_allocated x = 1%nat /\ l_freed x = 0%nat) \/
  (l_status x <> KOk /\ l_key x = None /\ l_allocated x = l_freed x /\ (l_length x = None \/ l_length x = Some 0)).
Proof.
  intros sha decrypt p s f memory m id. cbn zeta. unfold load_key. destruct (get_data_length f s m id) as [n|e].
  - destruct memory; cbn [negb].
    + destruct (fs_read sha decrypt p f s m id n) as [d|e]; cbn [l_status l_key l_length l_allocated l_freed].
      * left. repeat (split; [(reflexivity || (intro X; discriminate X))|]). reflexivity.
      * right. split; [destruct e; discriminate|]. auto.
    + right. cbn [l_status l_key l_length l_allocated l_freed]. split; [discriminate|auto].
  - right. cbn [l_status l_key l_length l_allocated l_freed]. split; [destruct e; discriminate|auto].
Qed.
Print Assumptions C79_no_leak.

(** A key that is loaded from a store with digests or encryption has passed
    the check, whatever is in the flash: altered keys are not returned unless
    their digest or tag is right too. *)
Theorem C79_checked : forall sha decrypt p s f memory m id k,
  l_key (load_key sha decrypt p s f memory m id) = Some k ->
  exists a,
    match p with
    | PNone => img_read m a (length k) = k
    | PHash => img_read m a (length k) = k /\ img_read m (a + N.of_nat (length k)) HASH_LENGTH = sha k
    | PEncrypted => exists n, let b := a + N.of_nat n in
        decrypt (img_read m b IV_LENGTH) (img_read m a n) (img_read m (b + N.of_nat IV_LENGTH) TAG_LENGTH) = Some k
    end.
Proof.
  intros sha decrypt p s f memory m id k. unfold load_key. destruct (get_data_length f s m id) as [n|e]; [|discriminate].
  destruct (negb memory); [discriminate|]. destruct (fs_read sha decrypt p f s m id n) as [d|e] eqn:R; [|discriminate].
  cbn [l_key]. intros Q. assert (d = k) as -> by congruence. exact (C08_read_checked _ _ _ _ _ _ _ _ _ R).
Qed.
Print Assumptions C79_checked.

(** Power loss while a key is saved, at any point: afterwards the old result,
    no key or the new key is loaded. *)
Theorem C79_power_loss : forall sha encrypt decrypt p s torn f m m' id k iv,
  engines_ok sha encrypt decrypt -> fs_ok s (N.of_nat (extra_length p)) -> fs_overhead s = 0 -> fs_variable s = true ->
  id < fs_blocks s -> acceptable s k -> bytes_ok k -> bytes_ok iv -> length iv = IV_LENGTH ->
  (torn = true -> fs_page s = None /\ fs_max s < 65280) ->
  interrupted torn m (fs_write_ops sha encrypt p s id k iv) m' -> no_read_faults f ->
  let seen m := (l_status (load_key sha decrypt p s f true m id), l_key (load_key sha decrypt p s f true m id)) in
  seen m' = seen m \/ seen m' = (KNoKey, None) \/ seen m' = (KOk, Some k).
Proof.
  intros sha encrypt decrypt p s torn f m m' id k iv ENG OK NO V Hid A BK BI LI T IN NF. cbv beta zeta.
  assert (SE : forall m, (l_status (load_key sha decrypt p s f true m id), l_key (load_key sha decrypt p s f true m id)) =
    match fs_read sha decrypt p f s m id (fs_max s) with inl d => (KOk, Some d) | inr e => (read_error e, None) end).
  { intros q. pose proof (load_read sha decrypt p s f q id) as L. cbn zeta in L.
    destruct (fs_read sha decrypt p f s q id (fs_max s)) as [d|e] eqn:R.
    - destruct L as (n & G & ->). reflexivity.
    - destruct L as [(-> & ->)|(e' & G & -> & ->)]; [reflexivity|]. cbn [l_status l_key]. f_equal. exact (same_error _ _ _ _ _ G). }
  assert (SZ : N.of_nat (length k) <= fs_max s) by (destruct A as (_ & Z & _); exact Z).
  rewrite !SE.
  destruct (C08_power_loss sha encrypt decrypt p s torn f m m' id k iv (fs_max s) ENG OK NO V Hid A BK BI LI T IN NF SZ) as [R|[R|R]]; rewrite R.
  - left. reflexivity.
  - right. left. reflexivity.
  - right. right. reflexivity.
Qed.
Print Assumptions C79_power_loss.

Definition ex_calls : list (faults * key_op) :=
  [(ex_good, Save 0 [1; 2; 3] ex_iv); (ex_good, Save 1 [4; 5] ex_iv); (ex_good, Save 2 [6] ex_iv);
   (ex_bad, Save 1 [7; 8; 9] ex_iv); (ex_good, Erase 2); (ex_good, Save 3 [1] ex_iv)].

Example C79_example :
  fs_ok ex_store (N.of_nat (extra_length PHash)) /\ Forall call_ok (map snd ex_calls) /\
  (let '(m, calls) := key_run ex_sha ex_encrypt PHash ex_store (fun _ => 0) ex_calls in
   key_is 0 calls (Some [1; 2; 3]) /\ key_is 2 calls None /\ ~ (exists k, key_is 1 calls k) /\
   l_key (load_key ex_sha ex_decrypt PHash ex_store ex_good true m 0) = Some [1; 2; 3] /\
   l_status (load_key ex_sha ex_decrypt PHash ex_store ex_good true m 2) = KNoKey /\
   l_status (load_key ex_sha ex_decrypt PHash ex_store ex_good true m 1) = KNoKey /\
   l_status (load_key ex_sha ex_decrypt PHash ex_store ex_good true m 3) = KStore FsUnsupportedId /\
   l_status (load_key ex_sha ex_decrypt PHash ex_store ex_good false m 0) = KNoMemory).
Proof.
  split; [exact (proj1 (proj2 C07_example))|].
  split; [repeat constructor|].
  destruct (key_run _ _ _ _ _ ex_calls) as [m calls] eqn:K.
  assert (C : calls = snd (key_run ex_sha ex_encrypt PHash ex_store (fun _ => 0) ex_calls)) by now rewrite K.
  assert (M : m = fst (key_run ex_sha ex_encrypt PHash ex_store (fun _ => 0) ex_calls)) by now rewrite K.
  clear K. split; [|split; [|split]].
  - rewrite C. vm_compute. 
    apply (unconcerned 0 [_; _; _; _; _] _ _ _); [now left|].
    apply (unconcerned 0 [_; _; _; _] _ _ _); [now left|].
    apply (unconcerned 0 [_; _; _] _ _ _); [now left|].
    apply (unconcerned 0 [_; _] _ _ _); [now left|].
    apply (unconcerned 0 [_] _ _ _); [now left|].
    apply (saved 0 []).
  - rewrite C. vm_compute.
    apply (unconcerned 2 [_; _; _; _; _] _ _ _); [now left|].
    apply (erased 2 [_; _; _; _]).
  - intros (k & H). apply key_is_content in H. rewrite C in H. vm_compute in H. destruct k; discriminate.
  - rewrite M. repeat split; vm_compute; reflexivity.
Qed.

(** In a store of fixed-size keys without protection an erased key is loaded
    as if it had been saved: its bytes are those of erased flash. *)
Theorem C79_erased_refuted : ~ (forall sha encrypt decrypt p s m0 l f id,
  engines_ok sha encrypt decrypt -> fs_ok s (N.of_nat (extra_length p)) -> fs_overhead s = 0 ->
  Forall call_ok (map snd l) -> no_read_faults f -> id < fs_blocks s ->
  let '(m, calls) := key_run sha encrypt p s m0 l in
  key_is id calls None -> l_status (load_key sha decrypt p s f true m id) <> KOk).
Proof.
  intros H.
  specialize (H ex_sha ex_encrypt ex_decrypt PNone (mk_fs 192 3 true false 4 0 64 false None 64) (fun _ => 0)
    [(ex_good, Save 1 [1; 2; 3; 4] ex_iv); (ex_good, Erase 1)] ex_good 1 engines_example).
  destruct (key_run _ _ _ _ _ _) as [m calls] eqn:K.
  apply H.
  - constructor; cbn; try lia; intros; try discriminate; try lia; auto.
  - reflexivity.
  - repeat constructor.
  - intros a. reflexivity.
  - reflexivity.
  - replace calls with (snd (m, calls)) by reflexivity. rewrite <- K. vm_compute. apply (erased 1 [_]).
  - replace m with (fst (m, calls)) by reflexivity. rewrite <- K. vm_compute. reflexivity.
Qed.
Print Assumptions C79_erased_refuted.

(** What an error means: the key is reported as bad exactly if there is a key whose
    digest or tag is wrong, as missing exactly if the store has no data for it;
    any other error is that of the store. *)
Theorem C79_reported : forall sha decrypt p s f m id,
  let x := l_status (load_key sha decrypt p s f true m id) in
  let found n := get_data_length f s m id = inl n in
  let read n := fs_read sha decrypt p f s m id n in
  (x = KBadKey <-> exists n, found n /\ read n = inr FsCorrupt) /\
  (x = KNoKey <-> get_data_length f s m id = inr FsNoData \/ exists n, found n /\ read n = inr FsNoData) /\
  (forall e, x = KStore e -> get_data_length f s m id = inr e \/ exists n, found n /\ read n = inr e) /\
  x <> KNoMemory.
Proof.
  intros sha decrypt p s f m id. cbv beta zeta. unfold load_key. destruct (get_data_length f s m id) as [n|e] eqn:G; cbn [negb].
  - destruct (fs_read sha decrypt p f s m id n) as [d|e] eqn:R; cbn [l_status].
    + repeat split; try discriminate.
      * intros (k & K & Q). assert (k = n) by congruence. subst k. congruence.
      * intros [Q|(k & K & Q)]; [discriminate|]. assert (k = n) by congruence. subst k. congruence.
    + repeat split.
      * intros Q. exists n. split; [reflexivity|]. rewrite R. destruct e; try discriminate Q. reflexivity.
      * intros (k & K & Q). assert (k = n) by congruence. subst k. assert (e = FsCorrupt) as -> by congruence. reflexivity.
      * intros Q. right. exists n. split; [reflexivity|]. rewrite R. destruct e; try discriminate Q. reflexivity.
      * intros [Q|(k & K & Q)]; [discriminate|]. assert (k = n) by congruence. subst k. assert (e = FsNoData) as -> by congruence. reflexivity.
      * intros g Q. right. exists n. split; [reflexivity|]. rewrite R. destruct e; cbn in Q; congruence.
      * destruct e; discriminate.
  - cbn [l_status]. repeat split.
    + intros Q. destruct e; discriminate Q.
    + intros (k & K & _). discriminate.
    + intros Q. left. destruct e; try discriminate Q. reflexivity.
    + intros [Q|(k & K & _)]; [|discriminate]. assert (e = FsNoData) as -> by congruence. reflexivity.
    + intros g Q. left. destruct e; cbn in Q; congruence.
    + destruct e; discriminate.
Qed.
Print Assumptions C79_reported.

(** A key whose bytes in flash were changed. *)
Example damaged_key :
  let m := fst (key_run ex_sha ex_encrypt PHash ex_store (fun _ => 0) ex_calls) in
  let damaged := fun a => if a =? block_start (fs_base ex_store) (fs_block ex_store) (fs_decreasing ex_store) 0 + HEADER_LENGTH then 99 else m a in
  l_status (load_key ex_sha ex_decrypt PHash ex_store ex_good true damaged 0) = KBadKey.
Proof. vm_compute. reflexivity. Qed.
