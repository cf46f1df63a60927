(** C15, C16, C17, C18: MCTP packets, packetising and message assembly. *)
From Coq Require Import List NArith ZArith Lia Bool Arith ZifyBool ZifyNat ZifyN.
From Verif Require Import Base Crc8_Model Crc8_Spec Crc8_Proofs FlashStore_Layout_Proofs Mctp_Model Mctp_Spec Mctp_Proofs Mctp_Send_Proofs
  Mctp_Receive_Proofs.
Import ListNotations.
Local Open Scope nat_scope.

(** * C15: packets *)

(** What is built is what is read back, field by field; nothing outside the packet is written.  The payload
    may overlap the packet. *)
Theorem C15_round_trip : forall mem src n out room sa de se som eom seq tag owner da mem' k,
  (sa < 128)%N -> de <> se -> (seq < 4)%N -> (tag < 8)%N -> (owner < 2)%N ->
  src + n <= length mem -> out + room <= length mem ->
  construct mem src n out room sa de se som eom seq tag owner da = inl (mem', k) ->
  length mem' = length mem /\ k <= room /\
  (forall i, i < out \/ out + k <= i -> nth i mem' 0%N = nth i mem 0%N) /\
  interpret (window out k mem') da =
    inl {| p_source_addr := sa; p_som := som; p_eom := eom; p_src_eid := se; p_dest_eid := de;
           p_payload := window src n mem; p_tag := tag; p_seq := seq;
           p_type := if som then (nth src mem 0 mod 128)%N else 0%N; p_owner := owner |}.
Proof.
  intros mem src n out room sa de se som eom seq tag owner da mem' k H1 H2 H3 H4 H5 H6 H7 H8.
  assert (V: 1 <= n <= 247 /\ 8 + n <= room).
  { unfold construct, MAX_UNIT, OVERHEAD in H8. destruct (Nat.eqb_spec n 0); [discriminate|].
    destruct (Nat.ltb_spec 247 n); [discriminate|]. cbn [orb] in H8. destruct (Nat.ltb_spec room (8 + n)); [discriminate|]. lia. }
  destruct V as (V1 & V2). rewrite construct_spec in H8 by lia.
  set (d := window src n mem) in *. assert (LD: length d = n) by (unfold d; rewrite length_window; lia).
  assert (K: k = 8 + n) by congruence.
  assert (M: mem' = splice mem out (packet_bytes sa de se som eom seq tag owner da d)) by congruence. clear H8. subst k mem'.
  pose proof (length_packet_bytes sa de se som eom seq tag owner da d) as LP. rewrite LD in LP. splits.
  - apply length_splice. lia.
  - lia.
  - intros i Hi. apply nth_splice_out; lia.
  - rewrite <- LP, window_splice by lia. rewrite interpret_packet_bytes by (auto; lia). unfold built. do 2 f_equal.
    destruct som; auto. f_equal. unfold d. rewrite nth_window by lia. f_equal. lia.
Qed.
Print Assumptions C15_round_trip.

Theorem C15_construct_total : forall mem src n out room sa de se som eom seq tag owner da,
  (exists mem' k, construct mem src n out room sa de se som eom seq tag owner da = inl (mem', k)) <->
  1 <= n <= 247 /\ 8 + n <= room.
Proof.
  intros. unfold construct, MAX_UNIT, OVERHEAD. destruct (Nat.eqb_spec n 0); cbn [orb].
  - split; [intros (? & ? & ?); discriminate|lia].
  - destruct (Nat.ltb_spec 247 n); [split; [intros (? & ? & ?); discriminate|lia]|].
    destruct (Nat.ltb_spec room (8 + n)); [split; [intros (? & ? & ?); discriminate|lia]|]. split; [lia|]. intros _. eauto.
Qed.
Print Assumptions C15_construct_total.

Example C15_round_trip_ex : exists mem',
  construct (repeat 7%N 40) 9 5 2 20 0x41 0x0b 0x0a true false 2 5 1 0x5d = inl (mem', 13) /\
  window 2 13 mem' = [15; 10; 131; 1; 11; 10; 173; 7; 7; 7; 7; 7; 210]%N.
Proof. eexists. split; reflexivity. Qed.

(** Whatever was received, an accepted packet's payload lies within the received bytes and is not empty. *)
Theorem C15_interpret_bounds : forall buf da p, interpret buf da = inl p ->
  exists len, 1 <= len /\ 7 + len <= length buf /\ p_payload p = window 7 len buf.
Proof. intros buf da p H. destruct (interpret_bounds buf da p H) as (A & B & C & _). eauto. Qed.
Print Assumptions C15_interpret_bounds.

(** A packet of up to 255 bytes with a byte after it is accepted only if that byte is the CRC. *)
Theorem C15_pec_checked : forall buf da p, bytes_ok buf -> interpret buf da = inl p ->
  let k := 7 + length (p_payload p) in
  k < length buf -> k <= 255 ->
  is_crc_remainder (be_value (((2 * da) mod 256)%N :: firstn k buf)) (nth k buf 0%N).
Proof.
  intros buf da p Hb H k Hk Hk2. destruct (interpret_bounds buf da p H) as (A & B & C & _ & D). fold k in D.
  rewrite <- (D Hk). assert (L: length (firstn k buf) = k) by (rewrite firstn_length; lia).
  assert (E: crc8 ((2 * da) mod 256) (Some buf) k = crc8 ((2 * da) mod 256) (Some (firstn k buf)) (length (firstn k buf))).
  { rewrite <- (crc8_prefix _ (firstn k buf) (skipn k buf)) by lia. now rewrite firstn_skipn, L. }
  rewrite E. apply crc8_is_remainder; [|now apply Forall_firstn|lia]. unfold byte_ok. apply N.mod_lt. discriminate.
Qed.
Print Assumptions C15_pec_checked.

Example C15_pec_checked_ex :
  (exists p, interpret [15; 10; 131; 1; 11; 10; 173; 7; 7; 7; 7; 7; 210]%N 0x5d = inl p) /\
  interpret [15; 10; 131; 1; 11; 10; 173; 7; 7; 7; 7; 7; 211]%N 0x5d = inr BadChecksum.
Proof. split; [|reflexivity]. vm_compute. eexists. reflexivity. Qed.

(** The block length of the CRC routine is a uint8_t: for a byte count of 254 the CRC of the empty string is
    compared.  The command channel's packets are too short for this, other callers are not. *)
Theorem C15_long_packet_pec_refuted :
  ~ (forall buf da p, bytes_ok buf -> interpret buf da = inl p ->
     let k := 7 + length (p_payload p) in
     k < length buf -> is_crc_remainder (be_value (((2 * da) mod 256)%N :: firstn k buf)) (nth k buf 0%N)).
Proof.
  intros H.
  set (buf := [15; 254; 131; 1; 11; 10; 173]%N ++ repeat 7%N 249 ++ [0]%N).
  assert (B: bytes_ok buf).
  { unfold buf. apply bytes_ok_app. split; [repeat constructor|]. apply bytes_ok_app. split; [|repeat constructor].
    apply Forall_forall. intros y Hy. apply repeat_spec in Hy. subst. reflexivity. }
  destruct (interpret buf 0x5d) as [p|] eqn:E; [|vm_compute in E; discriminate].
  specialize (H buf 0x5d%N p B E). cbn zeta in H.
  assert (K: 7 + length (p_payload p) = 256) by (vm_compute in E; injection E as <-; reflexivity).
  rewrite K in H. specialize (H ltac:(apply Nat.ltb_lt; reflexivity)).
  pose proof (crc8_loop_remainder (((2 * 0x5d) mod 256)%N :: firstn 256 buf) 0 0) as R.
  assert (R2 := R ltac:(constructor; [reflexivity|now apply Forall_firstn]) (conj eq_refl (ex_intro _ 0%N eq_refl))).
  pose proof (remainder_unique _ _ _ H R2) as U. vm_compute in U. discriminate.
Qed.
Print Assumptions C15_long_packet_pec_refuted.

(** * C16: a message sent in packets arrives as it was *)

Lemma wire_packets : forall unit mem src msg base max de da se sa tag owner, 1 <= unit <= 247 ->
  1 <= length msg -> window src (length msg) mem = msg -> src + length msg <= length mem -> base + max <= length mem ->
  8 * length (pieces unit msg) + length msg <= max ->
  base + 8 * length (pieces unit msg) <= src \/ src + length msg <= base ->
  wire mem unit src (length msg) base max de da se sa tag owner = Some (packets sa de se da tag owner (pieces unit msg) true 0).
Proof.
  intros unit mem src msg base max de da se sa tag owner H1 H2 H3 H4 H5 H6 H7.
  destruct (packetise_spec sa de se da tag owner unit mem src msg base max H1 H2 H3 H4 H5 H6 H7) as (mem' & total & first & E & _ & _ & _ & S).
  unfold wire. rewrite E. f_equal. apply S. lia.
Qed.

Lemma length_pieces : forall unit msg, 1 <= unit -> 1 <= length msg -> length (pieces unit msg) = (length msg - 1) / unit + 1.
Proof.
  intros unit msg H1 H2. destruct (length_cut (length msg) unit msg H1 ltac:(lia)) as (q & E & L1 & L2). unfold pieces. rewrite E.
  assert (Q: q = (length msg - 1) / unit); [|lia]. apply Nat.div_unique with (r := length msg - 1 - unit * q); lia.
Qed.

(** The events when a message of [k] packets arrives: all but the last packet are stored, the last one hands over
    the message. *)
Theorem C16_message_delivered : forall self supp s unit mem src msg base max de da se sa tag owner,
  1 <= unit <= 247 -> 1 <= length msg <= 4096 ->
  window src (length msg) mem = msg -> src + length msg <= length mem -> base + max <= length mem ->
  8 * ((length msg - 1) / unit + 1) + length msg <= max ->
  base + max <= src \/ src + length msg <= base ->
  (sa < 128)%N -> de <> se -> (tag < 8)%N -> de = self \/ de = NULL_EID ->
  takes supp owner tag (nth 0 msg 0 mod 128)%N (length msg) s ->
  exists pkts s', wire mem unit src (length msg) base max de da se sa tag owner = Some pkts /\
    let m := {| g_src_eid := se; g_src_addr := sa; g_dest_eid := de; g_tag := tag; g_owner := owner; g_data := msg |} in
    receive self supp s (map (fun p => (p, da)) pkts) =
      (s', repeat Stored ((length msg - 1) / unit) ++ [if (owner =? 0)%N then Response m else Request m]) /\
    m_start s' = 0 /\ r_state s' = (if (owner =? 0)%N then RspSuccess else r_state s).
Proof.
  intros self supp s unit mem src msg base max de da se sa tag owner Hu Hm HW Hs Hb Ht Hd Hsa Hne Htag Hde TK.
  pose proof (length_pieces unit msg ltac:(lia) ltac:(lia)) as LP.
  exists (packets sa de se da tag owner (pieces unit msg) true 0).
  assert (How: (owner < 2)%N) by (destruct TK as [(-> & _)|(-> & _)]; lia).
  assert (W: welcome tag owner supp s (nth 0 msg 0 mod 128)%N).
  { destruct TK as [(A & B)|(A & B & C & D & _)]; [left|right]; auto 6. }
  destruct (receive_message sa de se da tag owner self supp Hsa Hne Htag How Hde unit msg s Hu Hm W) as (q & s' & e & F & R).
  exists s'. split; [apply wire_packets; auto; try lia; rewrite LP; lia|]. cbn zeta. rewrite R, LP, Nat.add_sub.
  unfold finish in F. destruct TK as [(-> & B)|(-> & B & C & D & L)]; cbn [N.eqb] in F |- *.
  - unfold handle_request in F. injection F as <- <-. splits; auto.
  - unfold handle_response in F. cbn [assembled start_message r_state m_data r_max] in F. rewrite B in F.
    destruct (Nat.leb_spec (length msg) (r_max s)); [|lia]. injection F as <- <-. splits; auto.
Qed.
Print Assumptions C16_message_delivered.

(** A response larger than the requester's buffer is reported as such and nothing else. *)
Theorem C16_response_too_big : forall self supp s unit mem src msg base max de da se sa tag,
  1 <= unit <= 247 -> 1 <= length msg <= 4096 ->
  window src (length msg) mem = msg -> src + length msg <= length mem -> base + max <= length mem ->
  8 * ((length msg - 1) / unit + 1) + length msg <= max ->
  base + max <= src \/ src + length msg <= base ->
  (sa < 128)%N -> de <> se -> (tag < 8)%N -> de = self \/ de = NULL_EID ->
  r_state s = RspWaiting -> r_tag s = tag -> r_type s = (nth 0 msg 0 mod 128)%N -> r_max s < length msg ->
  exists pkts s' m, wire mem unit src (length msg) base max de da se sa tag 0 = Some pkts /\
    receive self supp s (map (fun p => (p, da)) pkts) = (s', repeat Stored ((length msg - 1) / unit) ++ [TooBig m]) /\
    m_start s' = 0 /\ r_state s' = RspTooBig.
Proof.
  intros self supp s unit mem src msg base max de da se sa tag Hu Hm HW Hs Hb Ht Hd Hsa Hne Htag Hde R1 R2 R3 R4.
  pose proof (length_pieces unit msg ltac:(lia) ltac:(lia)) as LP.
  assert (W: welcome tag 0 supp s (nth 0 msg 0 mod 128)%N) by (right; auto 6).
  destruct (receive_message sa de se da tag 0 self supp Hsa Hne Htag ltac:(lia) Hde unit msg s Hu Hm W) as (q & s' & e & F & R).
  exists (packets sa de se da tag 0 (pieces unit msg) true 0), s'.
  unfold finish, handle_response in F. cbn [N.eqb assembled start_message r_state m_data r_max] in F. rewrite R1 in F.
  destruct (Nat.leb_spec (length msg) (r_max s)); [lia|].
  assert (E: e = TooBig (current (assembled (start_message s (built sa de se true true 0 tag 0 (hd [] (pieces unit msg)))) msg q))) by congruence.
  exists (current (assembled (start_message s (built sa de se true true 0 tag 0 (hd [] (pieces unit msg)))) msg q)).
  assert (S: m_start s' = 0 /\ r_state s' = RspTooBig) by (injection F as <- _; auto).
  split; [apply wire_packets; auto; try lia; rewrite LP; lia|]. rewrite R, LP, Nat.add_sub, <- E. auto.
Qed.
Print Assumptions C16_response_too_big.

(** A request of 150 bytes in packets of 64, received by an endpoint in the middle of another message. *)
Definition busy : mctp :=
  {| m_start := 20; m_seq := 3; m_tag := 6; m_owner := 1; m_src_eid := 9; m_src_addr := 0x20; m_dest_eid := 0x0b; m_data := repeat 1%N 40;
     r_state := RspWaiting; r_tag := 2; r_type := 0x7e; r_max := 100 |}.
Example C16_message_delivered_ex :
  let msg := repeat 0x7e%N 100 ++ repeat 5%N 50 in
  takes (fun t => (t =? 0x7e)%N) 1 3 (nth 0 msg 0 mod 128)%N (length msg) busy /\
  window 300 (length msg) (repeat 0%N 300 ++ msg) = msg /\ 8 * ((length msg - 1) / 64 + 1) + length msg <= 180.
Proof. cbn zeta. splits; [left; split; reflexivity|reflexivity|apply Nat.leb_le; reflexivity]. Qed.
Example C16_response_delivered_ex : takes (fun _ => false) 0 2 0x7e 80 busy.
Proof. right. splits; auto. cbn. lia. Qed.

(** * C17: only complete messages are delivered *)

(** Whatever arrives, in whatever order and however the expected response changes: a message that is
    handed on (event [n]) consists of packets [frs ++ [p]] that carry exactly this message, the last of
    them being the packet that arrived just then.  Since the point [pre] where its first packet arrived,
    nothing else was handed on, and no other packet took part. *)
Theorem C17_only_complete_messages : forall self supp s0 ops s es n e m, fresh s0 ->
  op_run self supp s0 ops = (s, es) -> nth_error es n = Some e -> delivers e = Some m ->
  exists pre mid buf addr frs p,
    firstn (S n) ops = pre ++ mid ++ [Rx buf addr] /\
    interleaved self supp (g_src_eid m, g_tag m, g_owner m) (expecting (fst (op_run self supp s0 pre))) frs mid /\
    interpret buf addr = inl p /\ (p_dest_eid p = self \/ p_dest_eid p = NULL_EID) /\
    one_message (frs ++ [p]) /\ carried (frs ++ [p]) m /\
    (forall k e', length pre <= k < n -> nth_error es k = Some e' -> delivers e' = None).
Proof.
  intros self supp s0 ops s es n e m F R He Hm. pose proof (run_tracked self supp s0 ops F) as T. rewrite R in T.
  destruct T as (_ & D). destruct (D n e m He Hm) as (pre & mid & buf & addr & frs & p & A1 & A2 & A3 & A4 & A5 & A6 & A7).
  exists pre, mid, buf, addr, frs, p. splits; auto. intros k e' Hk He'. apply (A7 k); [lia|].
  rewrite <- He'. rewrite <- (firstn_skipn n es) at 2. symmetry. apply nth_error_app1. rewrite firstn_length.
  assert (n < length es) by (apply nth_error_Some; congruence). lia.
Qed.
Print Assumptions C17_only_complete_messages.

(** A packet that does not take part in the message being assembled leaves everything as it was. *)
Theorem C17_foreign_packets_ignored : forall self supp s buf addr,
  foreign self supp (expecting s) (m_src_eid s, m_tag s, m_owner s) buf addr ->
  exists e, process_packet self supp s buf addr = (s, e) /\ delivers e = None.
Proof.
  intros self supp s buf addr F. unfold foreign in F. unfold process_packet.
  destruct (interpret buf addr) as [p|err]; [|eauto].
  destruct (negb (p_dest_eid p =? self)%N && negb (p_dest_eid p =? NULL_EID)%N) eqn:ED; [eauto|].
  assert (CONT: p_som p = false -> terminus p <> (m_src_eid s, m_tag s, m_owner s) -> exists e, assemble s p = (s, e) /\ delivers e = None).
  { intros F1 F2. unfold assemble. rewrite F1. destruct (m_start s =? 0); [eauto|].
    destruct (N.eqb_spec (p_tag p) (m_tag s)) as [T1|T1]; cbn [negb orb]; [|eauto].
    destruct (N.eqb_spec (p_owner p) (m_owner s)) as [T2|T2]; cbn [negb]; [|eauto].
    destruct (N.eqb_spec (p_src_eid p) (m_src_eid s)) as [T3|T3]; cbn [negb]; [|eauto].
    exfalso. apply F2. unfold terminus. congruence. }
  destruct F as [(F1 & F2)|[(F1 & F2)|[(F1 & F2 & F3)|(F1 & F2)]]].
  - apply N.eqb_neq in F1. apply N.eqb_neq in F2. rewrite F1, F2 in ED. discriminate.
  - rewrite F1. cbn [N.eqb]. destruct (is_expected_response s (p_tag p) (p_som p) (p_type p)) eqn:ER; [|eauto].
    exfalso. apply F2. unfold is_expected_response in ER. unfold awaited, expecting.
    destruct (r_state s); try discriminate; (apply andb_prop in ER; destruct ER as (E1 & E2); apply N.eqb_eq in E1; splits; auto;
      intros SO; rewrite SO in E2; cbn [andb] in E2; apply negb_true_iff, negb_false_iff, N.eqb_eq in E2; auto).
  - apply N.eqb_neq in F1. rewrite F1, F2, F3. cbn. eauto.
  - destruct (p_owner p =? 0)%N; [destruct (is_expected_response s (p_tag p) (p_som p) (p_type p)); eauto|].
    rewrite F1. cbn [andb]. auto.
Qed.
Print Assumptions C17_foreign_packets_ignored.

(** The message being assembled never outgrows its 4096-byte buffer. *)
Theorem C17_buffer_never_exceeded : forall self supp ops s0 s es, length (m_data s0) <= 4096 ->
  op_run self supp s0 ops = (s, es) -> length (m_data s) <= 4096.
Proof. intros self supp ops s0 s es. apply data_bounded. Qed.
Print Assumptions C17_buffer_never_exceeded.

(** A request in two packets with a stray packet of another message in between. *)
Definition idle : mctp :=
  {| m_start := 0; m_seq := 0; m_tag := 0; m_owner := 0; m_src_eid := 0; m_src_addr := 0; m_dest_eid := 0; m_data := [];
     r_state := RspIdle; r_tag := 0; r_type := 0; r_max := 0 |}.
Definition two_packets_and_a_stray : list op :=
  [Rx [15; 7; 33; 1; 11; 10; 0x8b; 0x7e; 2]%N 0x5d; Rx [15; 7; 33; 1; 11; 12; 0x5b; 8; 8]%N 0x5d; Rx [15; 6; 33; 1; 11; 10; 0x5b; 3]%N 0x5d].
Example C17_only_complete_messages_ex :
  fresh idle /\
  snd (op_run 11 (fun t => (t =? 0x7e)%N) idle two_packets_and_a_stray) =
    [Stored; Dropped InvalidEid;
     Request {| g_src_eid := 10; g_src_addr := 16; g_dest_eid := 11; g_tag := 3; g_owner := 1; g_data := [0x7e; 2; 3]%N |}].
Proof. split; reflexivity. Qed.
Example C17_foreign_packets_ignored_ex :
  foreign 11 (fun _ => true) (expecting busy) (m_src_eid busy, m_tag busy, m_owner busy) [15; 7; 33; 1; 11; 12; 0x5b; 8; 8]%N 0x5d.
Proof. vm_compute. right. right. right. split; [reflexivity|discriminate]. Qed.

(** * C18: packetising in place *)

Lemma in_place_packets : forall L off o mem unit resp de da se sa tag owner, 64 <= unit <= 247 ->
  length mem = L -> off = 8 * o -> 1 <= length resp <= 64 * o -> off + length resp <= L -> window off (length resp) mem = resp ->
  wire mem unit off (length resp) 0 L de da se sa tag owner = Some (packets sa de se da tag owner (pieces unit resp) true 0) /\
  wire (mem ++ resp) unit L (length resp) 0 L de da se sa tag owner = Some (packets sa de se da tag owner (pieces unit resp) true 0) /\
  8 * length (pieces unit resp) + length resp <= L.
Proof.
  intros L off o mem unit resp de da se sa tag owner Hu Hl Eo Hr Ho HW.
  destruct (length_cut (length resp) unit resp ltac:(lia) ltac:(lia)) as (q & E & L1 & L2). fold (pieces unit resp) in E.
  assert (Q: q < o) by nia. assert (B: 8 * length (pieces unit resp) <= off) by lia. assert (1 <= length resp) by lia. clear E L1 L2 Q Eo Hr.
  splits; [apply wire_packets; auto; try lia|apply wire_packets; rewrite ?app_length; auto; try lia|lia].
  unfold window. rewrite <- Hl, skipn_app_ge, Nat.sub_diag by lia. apply firstn_all.
Qed.

(** The response to a request is built 512 bytes into a buffer of 4608 bytes, and its packets are written
    from the start of that buffer.  The packets are those made from a separate copy. *)
Theorem C18_in_place : forall mem unit resp de da se sa tag owner, 64 <= unit <= 247 ->
  length mem = MSG_BUFFER -> 1 <= length resp <= MAX_BODY -> window REQ_OFFSET (length resp) mem = resp ->
  exists pkts,
    wire mem unit REQ_OFFSET (length resp) 0 MSG_BUFFER de da se sa tag owner = Some pkts /\
    wire (mem ++ resp) unit MSG_BUFFER (length resp) 0 MSG_BUFFER de da se sa tag owner = Some pkts.
Proof.
  intros mem unit resp de da se sa tag owner Hu Hl Hr HW.
  destruct (in_place_packets MSG_BUFFER REQ_OFFSET 64 mem unit resp de da se sa tag owner) as (A & B & _); eauto.
  - unfold MSG_BUFFER, MAX_BODY, REQ_OFFSET in *. lia.
Qed.
Print Assumptions C18_in_place.

(** So the requester gets the response. *)
Theorem C18_response_delivered : forall self supp s mem unit resp de da se sa tag, 64 <= unit <= 247 ->
  length mem = MSG_BUFFER -> 1 <= length resp <= MAX_BODY -> window REQ_OFFSET (length resp) mem = resp ->
  (sa < 128)%N -> de <> se -> (tag < 8)%N -> de = self \/ de = NULL_EID ->
  takes supp 0 tag (nth 0 resp 0 mod 128)%N (length resp) s ->
  exists pkts s', wire mem unit REQ_OFFSET (length resp) 0 MSG_BUFFER de da se sa tag 0 = Some pkts /\
    receive self supp s (map (fun p => (p, da)) pkts) =
      (s', repeat Stored ((length resp - 1) / unit) ++
           [Response {| g_src_eid := se; g_src_addr := sa; g_dest_eid := de; g_tag := tag; g_owner := 0; g_data := resp |}]).
Proof.
  intros self supp s mem unit resp de da se sa tag Hu Hl Hr HW Hsa Hne Htag Hde TK.
  assert (LE: REQ_OFFSET + length resp <= MSG_BUFFER) by (unfold MSG_BUFFER, MAX_BODY, REQ_OFFSET in *; lia).
  destruct (in_place_packets MSG_BUFFER REQ_OFFSET 64 mem unit resp de da se sa tag 0 Hu Hl eq_refl Hr LE HW) as (W1 & W2 & L).
  rewrite length_pieces in L by lia. revert L W1 W2 LE Hl HW. generalize MSG_BUFFER REQ_OFFSET. intros LB off L W1 W2 LE Hl HW.
  destruct (C16_message_delivered self supp s unit (mem ++ resp) LB resp 0 LB de da se sa tag 0 ltac:(lia) Hr) as (pkts2 & s' & W3 & R & _);
    rewrite ?app_length; auto; try lia.
  - unfold window. rewrite <- Hl, skipn_app_ge, Nat.sub_diag by lia. apply firstn_all.
  - eexists. exists s'. split; [exact W1|]. rewrite W2 in W3. injection W3 as <-. exact R.
Qed.
Print Assumptions C18_response_delivered.

(** The unit used for a device is at least 64 if the device announced nothing or at least 64. *)
Theorem C18_unit : forall local remote, 64 <= local <= 247 ->
  (forall r, remote = Some r -> r = 0 \/ 64 <= r) -> 64 <= max_transmission_unit local remote <= 247.
Proof.
  intros local remote H R. unfold max_transmission_unit, MIN_UNIT. destruct remote as [r|]; [|lia].
  destruct (Nat.eqb_spec r 0); [lia|]. specialize (R r eq_refl). lia.
Qed.
Print Assumptions C18_unit.

(** Nothing checks what a device announces.  One that announces packets of one byte makes a 70-byte
    response overwrite itself before it is sent. *)
Definition small_response : list N := map N.of_nat (seq 1 70).
Theorem C18_small_unit_refuted :
  let mem := repeat 0%N 512 ++ small_response ++ repeat 0%N 4026 in
  let unit := max_transmission_unit 247 (Some 1) in
  length mem = MSG_BUFFER /\ window REQ_OFFSET (length small_response) mem = small_response /\
  exists p1 p2,
    wire mem unit REQ_OFFSET (length small_response) 0 MSG_BUFFER 10 0x20 11 0x41 3 0 = Some p1 /\
    wire (mem ++ small_response) unit MSG_BUFFER (length small_response) 0 MSG_BUFFER 10 0x20 11 0x41 3 0 = Some p2 /\
    p1 <> p2.
Proof.
  cbn zeta. split; [reflexivity|]. split; [reflexivity|].
  destruct (wire (repeat 0%N 512 ++ small_response ++ repeat 0%N 4026) _ _ _ _ _ _ _ _ _ _ _) as [p1|] eqn:E1; [|vm_compute in E1; discriminate].
  change (max_transmission_unit 247 (Some 1)) with 1 in *.
  exists p1, (packets 0x41 10 11 0x20 3 0 (pieces 1 small_response) true 0). split; [reflexivity|]. split.
  - apply wire_packets; [lia| | | | | |left]; try (apply Nat.leb_le; reflexivity). reflexivity.
  - intros C. apply (f_equal (fun l => match l with Some l => nth 65 l [] | None => [] end)) in E1. subst p1. vm_compute in E1. discriminate.
Qed.
Print Assumptions C18_small_unit_refuted.

Example C18_in_place_ex :
  let resp := repeat 0x7e%N 4096 in length (repeat 0%N 512 ++ resp) = MSG_BUFFER /\
  window REQ_OFFSET (length resp) (repeat 0%N 512 ++ resp) = resp.
Proof.
  cbn zeta. unfold MSG_BUFFER, REQ_OFFSET. split; [rewrite app_length, !repeat_length; reflexivity|].
  rewrite repeat_length. unfold window. rewrite skipn_app_ge by (rewrite repeat_length; auto). rewrite repeat_length, Nat.sub_diag.
  apply firstn_all2. cbn [skipn]. rewrite repeat_length. auto.
Qed.
