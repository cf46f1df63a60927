(** Proofs about HMAC, the KDF and HKDF. *)
From Coq Require Import List NArith Lia Bool Arith ZifyBool ZifyNat ZifyN.
From Verif Require Import Base Hmac_Model Hmac_Spec.
Import ListNotations.

Section P.
Variable H : htype -> list N -> list N.
Variable b : build.
Variable fault : nat -> option (list N).
Hypothesis Hlen : forall t d, supported b t = true -> length (H t d) = digest_bytes t.

Notation start := (start b fault).
Notation update := (update fault).
Notation finish := (finish H fault).
Notation calculate := (calculate H b fault).
Notation hmac_init := (hmac_init H b fault).
Notation hmac_update := (hmac_update fault).
Notation updates := (updates fault).
Notation hmac_finish := (hmac_finish H b fault).
Notation generate_hmac := (generate_hmac H b fault).
Notation mac t := (hmac_of (H t) (block_bytes t)).
Notation mkey t := (hmac_key (H t) (block_bytes t)).

(** A call of the engine between two states failed. *)
Definition failed (e e' : engine) : Prop := exists i, calls e <= i < calls e' /\ fault i <> None.

Lemma start_spec : forall e t e' ok, start e t = (e', ok) -> active e = None ->
  calls e' = S (calls e) /\
  (if ok then active e' = Some (t, []) /\ supported b t = true
   else active e' = None /\ (failed e e' \/ supported b t = false)).
Proof.
  clear. intros e t e' ok E A. unfold Hmac_Model.start in E. rewrite A in E.
  destruct (fault (calls e)) eqn:F.
  - injection E as <- <-. cbn. split; auto. split; auto. left. exists (calls e). cbn. split; [lia|]. congruence.
  - destruct (supported b t) eqn:S; injection E as <- <-; cbn; auto.
Qed.

Lemma update_spec : forall e d e' ok t x, update e d = (e', ok) -> active e = Some (t, x) ->
  calls e' = S (calls e) /\ (if ok then active e' = Some (t, x ++ d) else failed e e').
Proof.
  clear. intros e d e' ok t x E A. unfold Hmac_Model.update in E. rewrite A in E.
  destruct (fault (calls e)) eqn:F; injection E as <- <-; cbn; split; auto.
  exists (calls e). cbn. split; [lia|]. congruence.
Qed.

Lemma finish_spec : forall e n e' r t x, finish e n = (e', r) -> active e = Some (t, x) -> supported b t = true ->
  digest_bytes t <= n ->
  calls e' = S (calls e) /\ (match r with Some d => active e' = None /\ d = H t x | None => failed e e' end).
Proof.
  clear. intros e n e' r t x E A S N. unfold Hmac_Model.finish in E. rewrite A in E.
  destruct (fault (calls e)) eqn:F.
  - injection E as <- <-. cbn. split; auto. exists (calls e). cbn. split; [lia|]. congruence.
  - destruct (hash_length t) as [l|] eqn:L.
    + assert (l = digest_bytes t) as -> by (destruct t; cbn in *; congruence).
      destruct (n <? digest_bytes t) eqn:Q; [lia|]. injection E as <- <-. cbn. auto.
    + destruct t; discriminate.
Qed.

Lemma calculate_spec : forall e t d e' r, calculate e t d = (e', r) -> active e = None ->
  calls e' = S (calls e) /\ active e' = None /\
  (match r with Some x => x = H t d /\ supported b t = true | None => failed e e' \/ supported b t = false end).
Proof.
  clear. intros e t d e' r E A. unfold Hmac_Model.calculate in E. rewrite A in E.
  destruct (fault (calls e)) eqn:F.
  - injection E as <- <-. cbn. split; auto. split; auto. left. exists (calls e). cbn. split; [lia|]. congruence.
  - destruct (supported b t) eqn:S; injection E as <- <-; cbn; auto.
Qed.

Lemma failed_mono : forall e1 e2 e3 e4, failed e2 e3 -> calls e1 <= calls e2 -> calls e3 <= calls e4 -> failed e1 e4.
Proof. clear. intros e1 e2 e3 e4 (i & A & B) ? ?. exists i. split; auto. lia. Qed.

Lemma known : forall t, t <> Other -> hash_length t = Some (digest_bytes t) /\ block_size t = Some (block_bytes t) /\
  0 < digest_bytes t <= 64 /\ digest_bytes t <= block_bytes t <= 128.
Proof. clear. intros t K. destruct t; try easy; cbn; repeat split; lia. Qed.

Lemma supported_known : forall t, supported b t = true -> t <> Other.
Proof. clear. intros t S ->. discriminate. Qed.

Lemma supported_max : forall t, supported b t = true -> digest_bytes t <= max_hash b.
Proof. clear. intros t S. unfold max_hash. destruct t; cbn in *; try rewrite S; destruct (b_sha512 b), (b_sha384 b); lia || discriminate. Qed.

Lemma max_le : max_hash b <= 64.
Proof. clear. unfold max_hash. destruct (b_sha512 b), (b_sha384 b); lia. Qed.

Lemma firstn_splice_0 : forall (A : Type) (l d : list A), firstn (length d) (splice l 0 d) = d.
Proof. intros. unfold splice. cbn [firstn app]. now rewrite firstn_app, Nat.sub_diag, firstn_all, firstn_O, app_nil_r. Qed.

Lemma inner_key : forall blk memory k, length k <= blk ->
  map (fun i => if i <? length k then N.lxor (nth i (splice memory 0 k) 0%N) 0x36 else 0x36%N) (seq 0 blk)
  = map (N.lxor 0x36) (k ++ repeat 0%N (blk - length k)).
Proof.
  clear. intros blk memory k L. apply nth_ext with (d := 0%N) (d' := 0%N).
  - rewrite !map_length, seq_length, app_length, repeat_length. lia.
  - intros i Hi. rewrite map_length, seq_length in Hi.
    set (f := fun i => if i <? length k then N.lxor (nth i (splice memory 0 k) 0%N) 0x36 else 0x36%N).
    rewrite (nth_indep (map f (seq 0 blk)) 0%N (f 0)) by (rewrite map_length, seq_length; lia).
    rewrite map_nth, seq_nth by lia. cbn [Nat.add]. unfold f. clear f.
    rewrite (nth_indep (map (N.lxor 0x36) _) 0%N (N.lxor 0x36 0%N)) by (rewrite map_length, app_length, repeat_length; lia).
    rewrite map_nth. destruct (i <? length k) eqn:Q.
    + rewrite app_nth1 by lia. unfold splice. cbn [firstn app]. rewrite app_nth1 by lia. apply N.lxor_comm.
    + rewrite app_nth2 by lia. rewrite nth_repeat. reflexivity.
Qed.

Lemma outer_key : forall k, map (fun x => N.lxor x (N.lxor 0x5c 0x36)) (map (N.lxor 0x36) k) = map (N.lxor 0x5c) k.
Proof.
  clear. intros k. rewrite map_map. apply map_ext. intros a.
  rewrite <- N.lxor_assoc, (N.lxor_comm 0x36 a), (N.lxor_assoc a 0x36 0x5c), (N.lxor_comm 0x36 0x5c), <- (N.lxor_assoc a 0x5c 0x36).
  rewrite N.lxor_assoc, N.lxor_nilpotent, N.lxor_0_r. apply N.lxor_comm.
Qed.

Definition key_ptr_ok (key : ptr) : Prop := match key with Null (S _) => False | _ => True end.

(** A context that is set up: the outer key is in it and the engine has the inner key. *)
Definition ready (e : engine) (m : hmac) (t : htype) (key text : list N) : Prop :=
  active e = Some (t, map (N.lxor 0x36) (mkey t key) ++ text) /\ supported b t = true /\
  m_type m = t /\ m_block m = block_bytes t /\ m_len m = digest_bytes t /\
  firstn (block_bytes t) (m_key m) = map (N.lxor 0x5c) (mkey t key) /\ length (m_key m) = 128.

Lemma hmac_key_length : forall t key, supported b t = true -> length (mkey t key) = block_bytes t.
Proof.
  intros t key S. unfold hmac_key. rewrite app_length, repeat_length. pose proof (known t (supported_known t S)).
  destruct (block_bytes t <? length key) eqn:Q; [rewrite Hlen by auto|]; lia.
Qed.

Lemma length_splice_0 : forall (A : Type) (l d : list A), length d <= length l -> length (splice l 0 d) = length l.
Proof. intros. unfold splice. cbn [firstn app]. rewrite app_length, skipn_length. lia. Qed.

Lemma cont_spec : forall e memory t k e' m ok, length k <= block_bytes t -> length memory = 128 -> active e = None -> t <> Other ->
  (let '(e, ok) := start e t in
      if ok then
        let inner := map (fun i => if i <? length k then N.lxor (nth i (splice memory 0 k) 0%N) 0x36 else 0x36%N) (seq 0 (block_bytes t)) in
        let buf := splice (splice memory 0 k) 0 inner in
        let '(e, ok) := update e (firstn (block_bytes t) buf) in
        if ok then (e, Hmac t (splice buf 0 (map (fun x => N.lxor x (N.lxor 0x5c 0x36)) (firstn (block_bytes t) buf)))
                            (block_bytes t) (digest_bytes t), true)
        else (cancel e, Hmac t (zeroes (length memory)) (block_bytes t) (digest_bytes t), false)
      else (e, Hmac t (zeroes (length memory)) (block_bytes t) (digest_bytes t), false)) = (e', m, ok) ->
  calls e < calls e' /\ length (m_key m) = 128 /\
  (if ok then active e' = Some (t, map (N.lxor 0x36) (k ++ repeat 0%N (block_bytes t - length k))) /\ supported b t = true /\
     m_type m = t /\ m_block m = block_bytes t /\ m_len m = digest_bytes t /\
     firstn (block_bytes t) (m_key m) = map (N.lxor 0x5c) (k ++ repeat 0%N (block_bytes t - length k))
   else active e' = None /\ m_key m = zeroes 128 /\ (failed e e' \/ supported b t = false)).
Proof.
  clear. intros e memory t k e' m ok Lk Lm A K E. pose proof (known t K) as (_ & _ & _ & _ & B).
  destruct (start e t) as [e1 ok1] eqn:E1. destruct (start_spec _ _ _ _ E1 A) as (C1 & R1). destruct ok1.
  - destruct R1 as (A1 & S). cbv zeta in E. rewrite (inner_key _ _ _ Lk) in E.
    set (ik := map (N.lxor 0x36) (k ++ repeat 0%N (block_bytes t - length k))) in *.
    assert (Li: length ik = block_bytes t) by (unfold ik; rewrite map_length, app_length, repeat_length; lia).
    assert (F: firstn (block_bytes t) (splice (splice memory 0 k) 0 ik) = ik) by (rewrite <- Li; apply firstn_splice_0).
    rewrite F in E. destruct (update e1 ik) as [e2 ok2] eqn:E2. destruct (update_spec _ _ _ _ _ _ E2 A1) as (C2 & R2). destruct ok2.
    + injection E as <- <- <-. cbn [m_key m_type m_block m_len].
      assert (L1: length (splice memory 0 k) = 128) by (rewrite length_splice_0; lia).
      assert (L2: length (splice (splice memory 0 k) 0 ik) = 128) by (rewrite length_splice_0; lia).
      split; [lia|]. split; [rewrite length_splice_0; rewrite ?map_length; lia|].
      split; [exact R2|]. split; auto. split; auto. split; auto. split; auto.
      unfold ik at 2. rewrite outer_key.
      replace (block_bytes t) with (length (map (N.lxor 0x5c) (k ++ repeat 0%N (block_bytes t - length k)))) at 1
        by (rewrite map_length, app_length, repeat_length; lia).
      apply firstn_splice_0.
    + injection E as <- <- <-. cbn [m_key cancel active calls]. split; [lia|]. rewrite Lm. split; [apply repeat_length|].
      split; auto. split; auto. left. eapply failed_mono; [exact R2|lia|cbn; lia].
  - injection E as <- <- <-. cbn [m_key]. split; [lia|]. rewrite Lm. split; [apply repeat_length|].
    destruct R1 as (A1 & R1). auto.
Qed.

Lemma hmac_init_spec : forall e memory t key e' m ok, hmac_init e memory t key = (e', m, ok) ->
  active e = None -> length memory = 128 ->
  calls e <= calls e' /\ length (m_key m) = 128 /\
  (if ok then ready e' m t (bytes key) []
   else active e' = None /\ (m_key m = memory \/ m_key m = zeroes 128) /\ (failed e e' \/ supported b t = false \/ ~ key_ptr_ok key)).
Proof.
  intros e memory t key e' m ok E A Lm.
  assert (T: t = Other \/ t <> Other) by (destruct t; auto; right; discriminate).
  destruct T as [->|K].
  - assert (X: (e', m, ok) = (e, Hmac Other memory 0 0, false)) by (rewrite <- E; destruct key as [[|n]|]; reflexivity).
    injection X as -> -> ->. cbn. auto 10.
  - destruct (known t K) as (HL & HB & B1 & B2). unfold Hmac_Model.hmac_init in E. rewrite HL, HB in E.
    assert (DONE: forall e0 k (ke : mkey t (bytes key) = k ++ repeat 0%N (block_bytes t - length k)),
      calls e <= calls e0 -> length k <= block_bytes t -> active e0 = None ->
      forall (E0 : (let '(e, ok) := start e0 t in
      if ok then
        let inner := map (fun i => if i <? length k then N.lxor (nth i (splice memory 0 k) 0%N) 0x36 else 0x36%N) (seq 0 (block_bytes t)) in
        let buf := splice (splice memory 0 k) 0 inner in
        let '(e, ok) := update e (firstn (block_bytes t) buf) in
        if ok then (e, Hmac t (splice buf 0 (map (fun x => N.lxor x (N.lxor 0x5c 0x36)) (firstn (block_bytes t) buf)))
                            (block_bytes t) (digest_bytes t), true)
        else (cancel e, Hmac t (zeroes (length memory)) (block_bytes t) (digest_bytes t), false)
      else (e, Hmac t (zeroes (length memory)) (block_bytes t) (digest_bytes t), false)) = (e', m, ok)),
      calls e <= calls e' /\ length (m_key m) = 128 /\
      (if ok then ready e' m t (bytes key) []
       else active e' = None /\ (m_key m = memory \/ m_key m = zeroes 128) /\ (failed e e' \/ supported b t = false \/ ~ key_ptr_ok key))).
    { intros e0 k ke Ce Lk A0 E0. pose proof (cont_spec _ _ _ _ _ _ _ Lk Lm A0 K E0) as (C & L & R).
      split; [lia|]. split; auto. destruct ok.
      - destruct R as (R1 & R2 & R3 & R4 & R5 & R6). unfold ready. rewrite ke, app_nil_r. auto 10.
      - destruct R as (R1 & R2 & R3). split; auto. split; auto. destruct R3 as [R3|R3]; auto. left. eapply failed_mono; eauto. }
    destruct key as [[|n]|d].
    + apply DONE with (e0 := e) (k := []); [|lia|cbn; lia|auto|exact E].
      cbn [bytes]. unfold hmac_key. cbn [length]. reflexivity.
    + injection E as <- <- <-. cbn. auto 10.
    + destruct (block_bytes t <? length d) eqn:Q.
      * destruct (calculate e t d) as [e1 r] eqn:E1. destruct (calculate_spec _ _ _ _ _ E1 A) as (C1 & A1 & R1). destruct r as [x|].
        -- destruct R1 as (-> & S). apply DONE with (e0 := e1) (k := H t d); [|lia|rewrite Hlen by auto; lia|auto|].
           ++ cbn [bytes]. unfold hmac_key. now rewrite Q.
           ++ rewrite Hlen by auto. exact E.
        -- injection E as <- <- <-. cbn [m_key]. split; [lia|]. rewrite Lm. split; [apply repeat_length|]. split; auto. split; auto.
           destruct R1; auto.
      * apply DONE with (e0 := e) (k := d); [|lia|lia|auto|exact E]. cbn [bytes]. unfold hmac_key. now rewrite Q.
Qed.

Definition data_ptr_ok (p : ptr) : Prop := match p with Null _ => False | Mem _ => True end.

Lemma updates_spec : forall l e e' ok t x, updates e l = (e', ok) -> active e = Some (t, x) ->
  calls e <= calls e' /\
  (if ok then active e' = Some (t, x ++ concat (map bytes l)) else failed e e' \/ ~ Forall data_ptr_ok l).
Proof.
  clear. induction l as [|p l IH]; intros e e' ok t x E A; cbn [Hmac_Model.updates] in E.
  - injection E as <- <-. cbn. rewrite app_nil_r. auto.
  - destruct p as [n|d]; cbn [Hmac_Model.hmac_update] in E.
    + injection E as <- <-. split; auto. right. intros F. inversion_clear F. auto.
    + destruct (update e d) as [e1 ok1] eqn:E1. destruct (update_spec _ _ _ _ _ _ E1 A) as (C1 & R1). destruct ok1.
      * destruct (IH _ _ _ _ _ E R1) as (C2 & R2). split; [lia|]. destruct ok.
        -- rewrite R2. cbn [map concat bytes]. now rewrite app_assoc.
        -- destruct R2 as [R2|R2]; [left; eapply failed_mono; eauto; lia|right]. intros F. inversion_clear F. auto.
      * injection E as <- <-. split; [lia|]. auto.
Qed.

Lemma ready_update : forall l e e' ok m t key text, updates e l = (e', ok) -> ready e m t key text ->
  calls e <= calls e' /\
  (if ok then ready e' m t key (text ++ concat (map bytes l)) else failed e e' \/ ~ Forall data_ptr_ok l).
Proof.
  clear. intros l e e' ok m t key text E (R1 & R2). destruct (updates_spec _ _ _ _ _ _ E R1) as (C & R). split; auto.
  destruct ok; auto. split; auto. now rewrite R, app_assoc.
Qed.

Lemma hmac_finish_spec : forall e m out e' m' out' ok t key text, hmac_finish e m out = (e', m', out', ok) ->
  ready e m t key text -> digest_bytes t <= length out ->
  calls e <= calls e' /\ active e' = None /\ m_key m' = zeroes 128 /\
  (if ok then out' = splice out 0 (mac t key text) else out' = out /\ failed e e').
Proof.
  intros e m out e' m' out' ok t key text E (R1 & S & T1 & T2 & T3 & K1 & K2) L.
  pose proof (known t (supported_known t S)) as (_ & _ & B1 & B2).
  unfold Hmac_Model.hmac_finish, hmac_cancel in E. rewrite T1, T2, T3, K1, K2 in E.
  destruct (length out <? digest_bytes t) eqn:Q; [lia|]. clear Q.
  destruct (finish e 64) as [e1 r1] eqn:E1. destruct (finish_spec _ _ _ _ _ _ E1 R1 S ltac:(lia)) as (C1 & X1).
  destruct r1 as [inner|].
  2: { injection E as <- <- <- <-. cbn. split; [lia|]. split; auto. split; auto. split; auto. eapply failed_mono; eauto. cbn; lia. }
  destruct X1 as (A1 & ->).
  destruct (start e1 t) as [e2 ok2] eqn:E2. destruct (start_spec _ _ _ _ E2 A1) as (C2 & X2). destruct ok2.
  2: { injection E as <- <- <- <-. cbn. split; [lia|]. split; auto. split; auto. split; auto. destruct X2 as (_ & [X2|X2]); [|congruence].
       eapply failed_mono; eauto; cbn; lia. }
  destruct X2 as (A2 & _).
  destruct (update e2 (map (N.lxor 92) (mkey t key))) as [e3 ok3] eqn:E3. destruct (update_spec _ _ _ _ _ _ E3 A2) as (C3 & X3). destruct ok3.
  2: { injection E as <- <- <- <-. cbn. split; [lia|]. split; auto. split; auto. split; auto. eapply failed_mono; eauto; cbn; lia. }
  match type of E with context [update e3 ?d] => destruct (update e3 d) as [e4 ok4] eqn:E4 end.
  destruct (update_spec _ _ _ _ _ _ E4 X3) as (C4 & X4). destruct ok4.
  2: { injection E as <- <- <- <-. cbn. split; [lia|]. split; auto. split; auto. split; auto. eapply failed_mono; eauto; cbn; lia. }
  destruct (finish e4 (length out)) as [e5 r5] eqn:E5. destruct (finish_spec _ _ _ _ _ _ E5 X4 S L) as (C5 & X5). destruct r5 as [d|].
  2: { injection E as <- <- <- <-. cbn. split; [lia|]. split; auto. split; auto. split; auto. eapply failed_mono; eauto; cbn; lia. }
  destruct X5 as (A5 & ->). injection E as <- <- <- <-. cbn [m_key]. split; [lia|]. split; auto. split; auto.
  f_equal. unfold hmac_of. cbv zeta. f_equal. cbn [app]. f_equal. apply firstn_all2. now rewrite Hlen.
Qed.

Lemma hmac_length : forall t key text, supported b t = true -> length (mac t key text) = digest_bytes t.
Proof. intros. apply Hlen. auto. Qed.

Lemma generate_hmac_spec : forall e memory t key data out e' m out' ok, generate_hmac e memory t key data out = (e', m, out', ok) ->
  active e = None -> length memory = 128 ->
  active e' = None /\ calls e <= calls e' /\ length (m_key m) = 128 /\ (m_key m = memory \/ m_key m = zeroes 128) /\
  (if ok then supported b t = true /\ digest_bytes t <= length out /\ key_ptr_ok key /\ data_ptr_ok data /\ m_key m = zeroes 128 /\
     out' = splice out 0 (mac t (bytes key) (bytes data))
   else out' = out /\ (failed e e' \/ supported b t = false \/ ~ key_ptr_ok key \/ ~ data_ptr_ok data \/ length out < digest_bytes t)).
Proof.
  intros e memory t key data out e' m out' ok E A Lm. unfold Hmac_Model.generate_hmac in E.
  destruct (hmac_init e memory t key) as [[e1 m1] ok1] eqn:E1. destruct (hmac_init_spec _ _ _ _ _ _ _ E1 A Lm) as (C1 & L1 & R1).
  destruct ok1.
  2: { injection E as <- <- <- <-. destruct R1 as (X & Y & Z). split; auto. split; auto. split; auto. split; auto. split; auto.
       destruct Z as [Z|[Z|Z]]; auto. }
  assert (KP: key_ptr_ok key).
  { destruct key as [[|n]|]; cbn; auto. unfold Hmac_Model.hmac_init in E1. discriminate. }
  pose proof R1 as (_ & S & T1 & T2 & T3 & K1 & K2). unfold hmac_cancel in E. rewrite T3, K2 in E.
  destruct (length out <? digest_bytes t) eqn:Q.
  { injection E as <- <- <- <-. cbn [m_key cancel active calls]. split; auto. split; [lia|]. split; [apply repeat_length|]. split; auto. split; auto.
    right. right. right. right. lia. }
  destruct (hmac_update e1 data) as [e2 ok2] eqn:E2.
  assert (U: updates e1 [data] = (e2, ok2)) by (cbn [Hmac_Model.updates]; rewrite E2; now destruct ok2).
  destruct (ready_update _ _ _ _ _ _ _ _ U R1) as (C2 & R2). destruct ok2.
  - destruct (hmac_finish_spec _ _ _ _ _ _ _ _ _ _ E R2 ltac:(lia)) as (C3 & A3 & K3 & R3).
    split; auto. split; [lia|]. rewrite K3. split; [apply repeat_length|]. split; auto. destruct ok.
    + split; auto. split; [lia|]. split; auto. split; [|split; auto].
      * destruct data; cbn; auto. discriminate.
      * rewrite R3. cbn [map concat app]. now rewrite app_nil_r.
    + destruct R3 as (-> & F). split; auto. left. eapply failed_mono; eauto. lia.
  - injection E as <- <- <- <-. cbn [m_key cancel active calls]. split; auto. split; [lia|]. split; [apply repeat_length|]. split; auto. split; auto.
    destruct R2 as [F|F]; [left; eapply failed_mono; eauto; cbn; lia|]. right; right; right; left. intros D. apply F. auto.
Qed.
End P.
