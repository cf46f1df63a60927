(** An image received in pieces is the one that is installed. *)
From Coq Require Import List NArith ZArith Lia Bool Arith ZifyBool ZifyNat ZifyN.
From Verif Require Import Base Flash_Base FlashUtil_Model FlashUtil_Proofs FlashUpdater_Model FlashUpdater_Proofs
  FwUpdate_Model FwUpdate_Spec FwUpdate_Flash_Proofs FwUpdate_Proofs FwUpdate_History_Proofs FwUpdate_Run_Proofs.
Import ListNotations.
Local Open Scope N_scope.

Section Staged.
Variable fmt : image -> N -> option fwinfo.
Variable hash : nat -> list N -> list N.
Variable c : fcfg.
Variable oracle : nat -> env.
Hypothesis Hfmt : image_format fmt (c_size c - c_off c).
Hypothesis Hlay : layout c.
Hypothesis Hpage : c_page_fails c = false.

(** After [got] of [n] announced bytes. *)
Definition receiving (n : N) (got : list N) (s : fst_) : Prop :=
  inv fmt c s /\ s_upd s = mk_upd (c_staging c + c_off c) (c_size c - c_off c) (Z.of_N n - Z.of_nat (length got)) (N.of_nat (length got)) /\
  n <= c_size c - c_off c /\ s_len s = n /\
  img_read (s_mem s) (c_staging c + c_off c) (length got) = got /\
  blank_on (s_mem s) (c_staging c + c_off c + N.of_nat (length got)) (n - N.of_nat (length got)).

Lemma prepared : forall n s s', inv fmt c s -> step fmt hash c oracle s (Prepare n) = (s', Ok tt) -> receiving n [] s' /\ s_digest s' = None.
Proof.
  intros n s s' I H. cbn [step] in H. pose proof H as H0. apply (prepare_inv fmt c oracle Hfmt Hlay Hpage) in H0; auto. destruct H0 as (I' & _).
  unfold prepare_staging in H.
  apply bind_cases in H. destruct H as [(s1 & [] & H1 & H)|(e & _ & ?)]; [|discriminate].
  apply call_spec in H1. destruct H1 as (C & M & _). apply quiet_calm in C. destruct C as (C1 & C2 & C3 & C4 & C5 & C6 & C7).
  unfold bind at 1, ask in H. unfold bind at 1, get in H. unfold bind at 1, get in H. cbn [s_upd s_mem s_tick] in H. rewrite C4, M in H.
  set (e := oracle (s_tick s1)) in *. destruct I as (B & (U1 & U2 & U3) & _).
  pose proof (prepare_spec (e_read e) (e_erase e) (c_blk c) (lay_blk c Hlay) (s_upd s) (s_mem s) n n (u_base (s_upd s)) (u_max (s_upd s))) as P.
  unfold prepare_for_update in H. unfold upd_prepare in *.
  destruct (N.ltb_spec (u_max (s_upd s)) n) as [L|L].
  { unfold bind, set_mem, set_upd, clear_digest, set_digest, set_len, fail in H. cbn in H. discriminate. }
  destruct (if n =? 0 then (s_mem s, FuOk) else erase_and_verify (e_read e) (e_erase e) (c_blk c) (s_mem s) (u_base (s_upd s)) (N.to_nat n)) as [m' x].
  destruct x; try (unfold bind, set_mem, set_upd, clear_digest, set_digest, set_len, fail in H; cbn in H; discriminate).
  specialize (P ltac:(unfold inside; split; lia) L). destruct P as (_ & _ & P). destruct (P eq_refl) as (_ & _ & Bl). clear P.
  unfold bind, set_mem, set_upd, clear_digest, set_digest, set_len, ret, settle in H. cbn in H. injection H as <-. unfold receiving. cbn in *.
  rewrite U1, U2 in *. split; [|auto]. split; [auto|]. split; [f_equal; lia|]. split; [lia|]. split; [auto|]. split; [auto|].
  intros x Hx. apply Bl. lia.
Qed.

Lemma received_more : forall n got d s s', receiving n got s -> bytes_ok d -> N.of_nat (length d) + c_size c < 2 ^ 32 ->
  N.of_nat (length (got ++ d)) <= n ->
  step fmt hash c oracle s (Write d) = (s', Ok tt) -> receiving n (got ++ d) s' /\ s_digest s' = s_digest s.
Proof.
  intros n got d s s' (I & U & Ln & L & R & Bl) Bd Hd Hn H. cbn [step] in H. pose proof H as H0.
  apply (write_inv fmt hash c oracle Hfmt Hlay Hpage) in H0; auto. destruct H0 as (I' & _). pose proof I as (B & _).
  unfold write_staging in H. unfold bind at 1, get in H. destruct (c_need_digest c && _); [discriminate|].
  unfold bind at 1, ask in H. unfold bind at 1, get in H. unfold bind at 1, get in H. cbn [s_upd s_mem s_tick] in H.
  pose proof (lay_staging c Hlay) as (L1 & L2). pose proof (lay_off c Hlay) as L3. rewrite app_length in *.
  set (e := oracle (s_tick s)) in *.
  pose proof (write_spec (e_write e) (s_upd s) (s_mem s) d) as W. rewrite U in W, H. cbn [u_base u_max u_off u_size] in W, H.
  specialize (W ltac:(lia) ltac:(lia) ltac:(lia)).
  destruct (upd_write (e_write e) _ (s_mem s) d) as [[u' m'] x]. destruct W as (W1 & W2 & W3 & _ & W5 & _).
  destruct x; try (unfold bind, set_mem, set_upd, fail in H; discriminate).
  destruct (W5 eq_refl) as (W6 & W7 & W8). unfold bind, set_mem, set_upd, ret in H. injection H as <-. unfold receiving. cbn in *.
  split; [|auto]. split; [auto|]. rewrite app_length. split.
  { destruct u'. cbn in *. subst. f_equal; lia. }
  split; [auto|]. split; [auto|]. split.
  - rewrite img_read_app. f_equal.
    + transitivity (img_read (s_mem s) (c_staging c + c_off c) (length got)); [|exact R]. apply img_read_ext. intros k Hk.
      rewrite W8. apply nor_write_out. lia.
    + transitivity (img_read (nor_write (s_mem s) (c_staging c + c_off c + N.of_nat (length got)) d) (c_staging c + c_off c + N.of_nat (length got)) (length d)).
      { apply img_read_ext. intros k Hk. apply W8. }
      apply img_read_write_blank; auto. intros y Hy. apply Bl. lia.
  - intros y Hy. rewrite W8. rewrite nor_write_out by lia. apply Bl. lia.
Qed.

Lemma received_all : forall n ds got s s', receiving n got s -> bytes_ok (concat ds) ->
  (forall d, In d ds -> N.of_nat (length d) + c_size c < 2 ^ 32) -> N.of_nat (length (got ++ concat ds)) <= n ->
  all_succeed fmt hash c oracle s (map Write ds) s' -> receiving n (got ++ concat ds) s' /\ s_digest s' = s_digest s.
Proof.
  intros n. induction ds as [|d ds IH]; intros got s s' R B D L H.
  - cbn in *. subst s'. now rewrite app_nil_r.
  - cbn [map all_succeed concat] in *. destruct H as (s1 & H1 & H). rewrite !app_length in L.
    apply Forall_app in B. destruct B as (B1 & B2).
    apply (received_more n got) in H1; auto; [|apply D; now left|rewrite app_length; lia]. destruct H1 as (R1 & D1).
    rewrite app_assoc. apply (IH (got ++ d)) in H; auto.
    + destruct H as (H1 & H2). split; [auto|congruence].
    + intros x Hx. apply D. now right.
    + rewrite !app_length. lia.
Qed.

Lemma all_succeed_app : forall l1 l2 s s', all_succeed fmt hash c oracle s (l1 ++ l2) s' ->
  exists s1, all_succeed fmt hash c oracle s l1 s1 /\ all_succeed fmt hash c oracle s1 l2 s'.
Proof.
  induction l1 as [|o l1 IH]; intros l2 s s' H; cbn [app all_succeed] in *; [eauto|].
  destruct H as (s1 & H1 & H). apply IH in H. destruct H as (s2 & H2 & H). exists s2. split; [exists s1; auto|auto].
Qed.

End Staged.
