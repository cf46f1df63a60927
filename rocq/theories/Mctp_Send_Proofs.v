(** Proofs about MCTP: packetising a message. *)
From Coq Require Import List NArith ZArith Lia Bool Arith ZifyBool ZifyNat ZifyN.
From Verif Require Import Base Crc8_Model FlashStore_Layout_Proofs KeyWrap_Proofs Mctp_Model Mctp_Spec Mctp_Proofs.
Import ListNotations.
Local Open Scope nat_scope.

Section Send.
Variables sa de se da tag owner : N.

Fixpoint packets (chunks : list (list N)) (som : bool) (seq : N) : list (list N) :=
  match chunks with
  | [] => []
  | d :: r =>
    packet_bytes sa de se som (match r with [] => true | _ => false end) seq tag owner da d :: packets r false ((seq + 1) mod 4)%N
  end.

Lemma length_packets : forall l som seq, length (concat (packets l som seq)) = 8 * length l + length (concat l).
Proof.
  induction l as [|d l IH]; intros som seq; auto.
  cbn [packets concat length]. rewrite !app_length, length_packet_bytes, IH. lia.
Qed.

Lemma cut_nonempty : forall c unit msg, 1 <= c -> exists d r, cut c unit msg = d :: r.
Proof. intros [|c] unit msg H; [lia|]. cbn [cut]. destruct (length msg <=? unit); eauto. Qed.

Lemma concat_cut : forall c unit msg, 1 <= unit -> length msg <= c -> concat (cut c unit msg) = msg.
Proof.
  induction c as [|c IH]; intros unit msg Hu Hc.
  - destruct msg; cbn in *; [auto|lia].
  - cbn [cut]. destruct (Nat.leb_spec (length msg) unit); cbn [concat]; [now rewrite app_nil_r|].
    rewrite IH by (auto; rewrite skipn_length; lia). apply firstn_skipn.
Qed.

Lemma window_window_skip : forall (mem : list N) src len n, n <= len -> src + len <= length mem ->
  window (src + n) (len - n) mem = skipn n (window src len mem).
Proof.
  intros. unfold window. rewrite skipn_firstn_comm, skipn_skipn. reflexivity.
Qed.

Lemma window_window_first : forall (mem : list N) src len n, n <= len -> window src n mem = firstn n (window src len mem).
Proof. intros. unfold window. rewrite firstn_firstn. f_equal. lia. Qed.

Lemma generate_spec : forall unit base max_list, 1 <= unit <= 247 ->
  forall c mem src len i som seq first, 1 <= len <= c ->
  src + len <= length mem -> base + max_list <= length mem ->
  let chunks := cut c unit (window src len mem) in
  i + 8 * length chunks + len <= max_list ->
  base + i + 8 * length chunks <= src \/ src + len <= base + i ->
  generate (S c) mem unit src len base i max_list de da se sa tag owner som seq first =
  inl (splice mem (base + i) (concat (packets chunks som seq)), i + 8 * length chunks + len,
       if som then 8 + length (hd [] chunks) else first).
Proof.
  intros unit base max_list Hu. induction c as [|c IH]; intros mem src len i som seq first Hl Hs Hb; [lia|].
  cbn zeta. intros Hi Hd. remember (S c) as c1. cbn [generate]. subst c1. destruct (Nat.eqb_spec len 0); [lia|].
  assert (LW: length (window src len mem) = len) by (rewrite length_window; lia).
  cbn [cut] in *. rewrite LW in *. destruct (Nat.leb_spec len unit) as [HU|HU].
  - destruct (Nat.ltb_spec unit len); [lia|]. cbn [length hd packets concat] in *.
    rewrite construct_spec by lia. rewrite app_nil_r. cbn [generate]. 
    destruct (Nat.eqb_spec (len - len) 0); [|lia]. rewrite LW. replace (i + 8 * 1 + len) with (i + (8 + len)) by lia. reflexivity.
  - destruct (Nat.ltb_spec unit len); [|lia]. cbn [length hd packets concat] in *.
    rewrite construct_spec by lia.
    assert (LF: length (firstn unit (window src len mem)) = unit) by (rewrite firstn_length; lia).
    rewrite (window_window_first mem src len unit) by lia.
    set (d := firstn unit (window src len mem)) in *.
    set (pb := packet_bytes sa de se som false seq tag owner da d).
    assert (LP: length pb = 8 + unit) by (unfold pb; rewrite length_packet_bytes; lia).
    assert (W: window (src + unit) (len - unit) (splice mem (base + i) pb) = skipn unit (window src len mem)).
    { rewrite window_splice_away by lia. apply window_window_skip; lia. }
    assert (LM: length (splice mem (base + i) pb) = length mem) by (apply length_splice; lia).
    destruct (cut_nonempty c unit (skipn unit (window src len mem)) ltac:(lia)) as (x & r & EC).
    pose proof (IH (splice mem (base + i) pb) (src + unit) (len - unit) (i + (8 + unit)) false ((seq + 1) mod 4)%N
                  (if som then 8 + unit else first) ltac:(lia) ltac:(lia) ltac:(lia)) as G.
    cbn zeta in G. rewrite W in G. rewrite G by lia. clear G. f_equal.
    rewrite EC, LF. cbv iota. match goal with |- (?a, ?x, ?b) = (?c, ?y, ?d) => assert (E1 : x = y) by lia; rewrite E1 end. do 2 f_equal.
    unfold pb in *. set (pb' := packet_bytes sa de se som false seq tag owner da d) in *.
    replace (base + (i + (8 + unit))) with (base + i + length pb') by lia. apply splice_append.
    rewrite LP, length_packets, <- EC, concat_cut by (try lia; rewrite skipn_length; lia). rewrite skipn_length. lia.
Qed.

(** All pieces are full except the last, which is not empty. *)
Lemma cut_sizes : forall c unit msg, 1 <= unit -> 1 <= length msg <= c ->
  exists full lst, cut c unit msg = full ++ [lst] /\ Forall (fun d => length d = unit) full /\ 1 <= length lst <= unit.
Proof.
  induction c as [|c IH]; intros unit msg Hu Hc; [lia|]. cbn [cut]. destruct (Nat.leb_spec (length msg) unit).
  - exists [], msg. splits; auto; lia.
  - destruct (IH unit (skipn unit msg) Hu) as (full & lst & E & F & L); [rewrite skipn_length; lia|].
    exists (firstn unit msg :: full), lst. rewrite E. splits; auto; try lia. constructor; auto. rewrite firstn_length. lia.
Qed.

Lemma length_cut : forall c unit msg, 1 <= unit -> 1 <= length msg <= c ->
  exists q, length (cut c unit msg) = S q /\ q * unit < length msg <= S q * unit.
Proof.
  intros c unit msg Hu Hc. destruct (cut_sizes c unit msg Hu Hc) as (full & lst & E & F & L).
  exists (length full). rewrite E, app_length. cbn [length]. split; [lia|].
  rewrite <- (concat_cut c unit msg) by lia. rewrite E, concat_app, app_length. cbn [concat]. rewrite app_nil_r.
  assert (LC: length (concat full) = length full * unit).
  { clear - F. induction F; cbn [concat length]; auto. rewrite app_length. lia. }
  lia.
Qed.

(** The channel cuts the packetised message back into its packets. *)
Lemma send_packets_spec : forall size l lst fuel, 1 <= size -> Forall (fun p => length p = size) l -> 1 <= length lst <= size ->
  length l < fuel -> send_packets fuel (concat (l ++ [lst])) size = l ++ [lst].
Proof.
  intros size. induction l as [|p l IH]; intros lst fuel Hs F Hl Hf; (destruct fuel as [|fuel]; [cbn in Hf; lia|]).
  - cbn [app concat]. rewrite app_nil_r. cbn [send_packets]. destruct lst as [|x lst0] eqn:E; [cbn in Hl; lia|]. rewrite <- E in *.
    rewrite firstn_all2, skipn_all2 by lia. destruct fuel; reflexivity.
  - apply Forall_cons_iff in F. destruct F as (F1 & F). cbn [app concat send_packets].
    destruct (p ++ concat (l ++ [lst])) as [|x t] eqn:E; [apply app_eq_nil in E; destruct E as (-> & _); cbn in F1; lia|].
    rewrite <- E. destruct (app_split p (concat (l ++ [lst])) size F1) as (A & B). rewrite A, B. f_equal. apply IH; auto. cbn in Hf. lia.
Qed.

Lemma packets_sizes : forall unit full lst som seq, Forall (fun d => length d = unit) full -> 1 <= length lst <= unit ->
  exists pf pl, packets (full ++ [lst]) som seq = pf ++ [pl] /\ Forall (fun p => length p = 8 + unit) pf /\
    8 < length pl <= 8 + unit /\ length pf = length full.
Proof.
  intros unit. induction full as [|d full IH]; intros lst som seq F L.
  - cbn [app packets]. exists [], (packet_bytes sa de se som true seq tag owner da lst). rewrite length_packet_bytes. splits; auto; lia.
  - apply Forall_cons_iff in F. destruct F as (F1 & F). cbn [app packets].
    destruct (full ++ [lst]) as [|x t] eqn:E; [destruct full; discriminate|]. rewrite <- E.
    destruct (IH lst false ((seq + 1) mod 4)%N F L) as (pf & pl & E2 & F2 & L2 & L3). rewrite E2.
    exists (packet_bytes sa de se som false seq tag owner da d :: pf), pl. splits; auto; try lia; [|cbn; lia].
    constructor; auto. now rewrite length_packet_bytes, F1.
Qed.

(** The whole sending side. *)
Lemma packetise_spec : forall unit mem src msg base max_list, 1 <= unit <= 247 ->
  1 <= length msg -> window src (length msg) mem = msg -> src + length msg <= length mem -> base + max_list <= length mem ->
  8 * length (pieces unit msg) + length msg <= max_list ->
  base + 8 * length (pieces unit msg) <= src \/ src + length msg <= base ->
  exists mem' total first,
    generate_packets mem unit src (length msg) base max_list de da se sa tag owner = inl (mem', total, first) /\
    length mem' = length mem /\ total = 8 * length (pieces unit msg) + length msg /\
    mem' = splice mem base (concat (packets (pieces unit msg) true 0)) /\
    forall fuel, total < fuel ->
    send_packets fuel (window base total mem') first = packets (pieces unit msg) true 0.
Proof.
  intros unit mem src msg base max_list Hu Hm HW Hs Hb Ht Hd. unfold generate_packets, pieces in *.
  pose proof (generate_spec unit base max_list Hu (length msg) mem src (length msg) 0 true 0%N 0 ltac:(lia) Hs Hb) as G.
  cbn zeta in G. rewrite HW in G. rewrite G by lia. clear G.
  set (ch := cut (length msg) unit msg) in *. rewrite !Nat.add_0_r. cbn [Nat.add].
  pose proof (length_packets ch true 0) as LP. unfold ch in LP at 3. rewrite concat_cut in LP by lia.
  assert (LS: length (splice mem base (concat (packets ch true 0))) = length mem) by (apply length_splice; lia).
  do 3 eexists. split; [reflexivity|]. splits; auto. intros fuel Hf.
  assert (W: window base (8 * length ch + length msg) (splice mem base (concat (packets ch true 0))) = concat (packets ch true 0)).
  { rewrite <- LP. apply window_splice. lia. }
  rewrite W. destruct (cut_sizes (length msg) unit msg ltac:(lia) ltac:(lia)) as (full & lst & E & F & L).
  fold ch in E. rewrite E. destruct (packets_sizes unit full lst true 0%N F L) as (pf & pl & E2 & F2 & L2 & L3). rewrite E2.
  destruct full as [|d0 full].
  - destruct pf; [|cbn in L3; lia]. cbn [app concat hd] in *. rewrite app_nil_r.
    cbn [packets] in E2. injection E2 as E2. assert (LL: length pl = 8 + length lst) by (subst pl; apply length_packet_bytes).
    destruct fuel; [lia|]. cbn [send_packets]. destruct pl as [|x pl0] eqn:EP; [cbn in LL; lia|]. rewrite <- EP in *.
    rewrite firstn_all2, skipn_all2 by lia. destruct fuel; reflexivity.
  - cbn [app hd]. apply Forall_cons_iff in F. destruct F as (F1 & F). rewrite F1.
    apply send_packets_spec; auto; try lia.
    rewrite E in Hf. rewrite app_length in Hf. cbn [length] in *. lia.
Qed.
End Send.
