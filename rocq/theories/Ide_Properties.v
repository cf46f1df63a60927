(** C84: keys of PCIe links. *)
From Coq Require Import List NArith Bool Arith Lia.
From Verif Require Import Base Ide_Model Ide_Spec Hmac_Kdf_Proofs.
Import ListNotations.
Local Open Scope nat_scope.

Lemma seven : forall (b : list N), 7 <= length b -> exists a0 a1 a2 a3 a4 a5 a6 t, b = a0 :: a1 :: a2 :: a3 :: a4 :: a5 :: a6 :: t.
Proof.
  intros b L. do 7 (destruct b as [|? b]; [cbn in L; lia|]). repeat eexists.
Qed.

Lemma key_of_names : forall b, 7 <= length b -> names b (key_of b).
Proof.
  intros b L. destruct (seven b L) as (a0 & a1 & a2 & a3 & a4 & a5 & a6 & t & ->).
  unfold key_of. cbn [nth k_port k_stream k_set k_rx_tx k_sub].
  exists a1, a2, a4, ((a5 / 4) mod 4)%N, t. cbn [nth k_port k_stream k_set k_rx_tx k_sub]. split.
  - do 5 f_equal. f_equal. replace 16%N with (4 * 4)%N by reflexivity. rewrite <- N.div_div by discriminate.
    rewrite (N.div_mod a5 2) at 1 by discriminate. replace 4%N with (2 * 2)%N by reflexivity. rewrite <- N.div_div by discriminate.
    set (q := (a5 / 2)%N). pose proof (N.div_mod q 2 ltac:(discriminate)). change (2 * 2)%N with 4%N.
    pose proof (N.div_mod (q / 2) 4 ltac:(discriminate)). lia.
  - repeat split; apply N.mod_lt; discriminate.
Qed.

(** A key is programmed exactly if the request is protected and of the right
    length; the driver gets the key and IV of the request for the key it names.  The
    reply acknowledges that key with the right status, and the key is gone from
    the buffer, whether the driver took it or not. *)
Theorem C84_key_prog : forall d room b, 47 <= length b -> nth 0 b 0%N = 2%N ->
  exists k status,
    names b k /\
    calls (process true d room b 47) = [KeyProg k (window 7 32 b) (window 39 8 b)] /\
    Ide_Model.status (process true d room b 47) = Ok /\ reply (process true d room b 47) = 7 /\
    buffer (process true d room b 47) = [3; nth 1 b 0; nth 2 b 0; k_stream k; status; nth 5 b 0; k_port k]%N ++ repeat 0%N 40 ++ skipn 47 b /\
    (status = 0%N <-> d_prog d = None) /\ (status = 2%N <-> d_prog d = Some UnsupportedPort) /\
    (status = 3%N <-> d_prog d = Some InvalidArgument \/ d_prog d = Some InvalidStream) /\
    (status = 4%N <-> d_prog d = Some OtherError).
Proof.
  intros d room b L T. exists (key_of b). eexists.
  assert (P : process true d room b 47 = key_prog d b 47) by (unfold process; rewrite T; reflexivity).
  rewrite P. unfold key_prog. cbn [calls Ide_Model.status reply buffer negb Nat.eqb KEY_INFO KEY_BUFFER Nat.add].
  destruct (seven b ltac:(lia)) as (a0 & a1 & a2 & a3 & a4 & a5 & a6 & t & ->).
  split; [apply key_of_names; lia|]. split; [reflexivity|]. split; [reflexivity|]. split; [reflexivity|]. split; [reflexivity|].
  destruct (d_prog d) as [[]|]; repeat split; intros; intuition (congruence || discriminate).
Qed.
Print Assumptions C84_key_prog.

(** Keys are used and no longer used only on a request of the right form, for the
    key it names; the acknowledgement is the request with another id, and is sent
    only if the driver did it. *)
Theorem C84_go_stop : forall d room b, 7 <= length b ->
  (nth 0 b 0%N = 4%N -> exists k, names b k /\
     process true d room b 7 = if (d_go d =? 0)%N then Out Ok 7 (6%N :: skipn 1 b) [SetGo k] else Out (Driver (d_go d)) 0 b [SetGo k]) /\
  (nth 0 b 0%N = 5%N -> exists k, names b k /\
     process true d room b 7 = if (d_stop d =? 0)%N then Out Ok 7 (6%N :: skipn 1 b) [SetStop k] else Out (Driver (d_stop d)) 0 b [SetStop k]).
Proof.
  intros d room b L. split; intros T; exists (key_of b); (split; [apply key_of_names; exact L|]); unfold process; rewrite T; cbn.
  - unfold set_go; cbn. destruct (d_go d =? 0)%N; reflexivity.
  - unfold set_stop; cbn. destruct (d_stop d =? 0)%N; reflexivity.
Qed.
Print Assumptions C84_go_stop.

(** No other request reaches the keys: what is not protected, has another length or
    another id makes no call. *)
Theorem C84_refused : forall encrypted d room b plen,
  calls (process encrypted d room b plen) <> [] ->
  encrypted = true /\ (nth 0 b 0%N = 2%N /\ plen = 47 \/ nth 0 b 0%N = 4%N /\ plen = 7 \/ nth 0 b 0%N = 5%N /\ plen = 7).
Proof.
  intros encrypted d room b plen. unfold process. destruct encrypted; cbn [negb]; [|intros H; exfalso; apply H; reflexivity].
  destruct (plen <? 1); [intros H; exfalso; apply H; reflexivity|].
  destruct (nth 0 b 0 =? QUERY)%N eqn:E0.
  { intros H. exfalso. apply H. unfold query. cbv zeta.
    repeat match goal with |- context [match ?x with _ => _ end] => lazymatch x with context [match _ with _ => _ end] => fail | _ => destruct x end end; reflexivity. }
  destruct (nth 0 b 0 =? KEY_PROG)%N eqn:E1.
  { unfold key_prog. destruct (plen =? KEY_INFO + KEY_BUFFER) eqn:L; cbn [negb].
    - intros _. split; [reflexivity|]. left. apply N.eqb_eq in E1. apply Nat.eqb_eq in L. split; assumption.
    - destruct (length b <? KEY_INFO); intros H; exfalso; apply H; reflexivity. }
  destruct (nth 0 b 0 =? SET_GO)%N eqn:E2.
  { unfold set_go. destruct (plen =? KEY_INFO) eqn:L; cbn [negb]; [|intros H; exfalso; apply H; reflexivity].
    intros _. split; [reflexivity|]. right. left. apply N.eqb_eq in E2. apply Nat.eqb_eq in L. split; assumption. }
  destruct (nth 0 b 0 =? SET_STOP)%N eqn:E3; [|intros H; exfalso; apply H; reflexivity].
  unfold set_stop. destruct (plen =? KEY_INFO) eqn:L; cbn [negb]; [|intros H; exfalso; apply H; reflexivity].
  intros _. split; [reflexivity|]. right. right. apply N.eqb_eq in E3. apply Nat.eqb_eq in L. split; assumption.
Qed.
Print Assumptions C84_refused.

(** What is not answered is refused with the right error, no reply and the message
    as it was; a key of a wrong length is acknowledged with the status for that. *)
Theorem C84_errors : forall d room b plen,
  process false d room b plen = Out SecureRequired 0 b [] /\
  process true d room b 0 = Out InvalidSize 0 b [] /\
  (0 < plen -> (nth 0 b 0 <> 0 /\ nth 0 b 0 <> 2 /\ nth 0 b 0 <> 4 /\ nth 0 b 0 <> 5)%N ->
   process true d room b plen = Out UnknownCommand 0 b []) /\
  (0 < plen -> nth 0 b 0%N = 0%N /\ plen <> 3 \/ (nth 0 b 0 = 4 \/ nth 0 b 0 = 5)%N /\ plen <> 7 ->
   process true d room b plen = Out InvalidSize 0 b []) /\
  (0 < plen -> nth 0 b 0%N = 2%N -> plen <> 47 -> 7 <= length b ->
   process true d room b plen =
     Out Ok 7 ([3; nth 1 b 0; nth 2 b 0; nth 3 b 0; 1; nth 5 b 0; nth 6 b 0]%N ++ skipn 7 b) []).
Proof.
  intros d room b plen. split; [reflexivity|]. split; [reflexivity|].
  assert (P1 : 0 < plen -> (plen <? 1) = false) by (intros; apply Nat.ltb_ge; lia).
  split; [|split].
  - intros L (A & B & C & D). unfold process. rewrite (P1 L). cbv zeta. unfold QUERY, KEY_PROG, SET_GO, SET_STOP.
    apply N.eqb_neq in A, B, C, D. now rewrite A, B, C, D.
  - intros L H. unfold process. rewrite (P1 L). cbv zeta.
    destruct H as [[T E]|[[T|T] E]]; apply Nat.eqb_neq in E; rewrite T; cbn [negb N.eqb QUERY KEY_PROG SET_GO SET_STOP Pos.eqb];
      [unfold query, QUERY_LEN | unfold set_go, KEY_INFO | unfold set_stop, KEY_INFO]; rewrite E; reflexivity.
  - intros L T E LB. unfold process. rewrite (P1 L). cbv zeta. rewrite T. cbn [negb N.eqb QUERY KEY_PROG Pos.eqb].
    unfold key_prog. apply Nat.eqb_neq in E. change (KEY_INFO + KEY_BUFFER) with 47. rewrite E. cbn [negb]. unfold KEY_INFO.
    destruct (length b <? 7) eqn:F; [apply Nat.ltb_lt in F; lia|].
    destruct (seven b LB) as (a0 & a1 & a2 & a3 & a4 & a5 & a6 & t & ->). reflexivity.
Qed.
Print Assumptions C84_errors.

Lemma skipn_splice_after : forall (b d : list N) p m, p + length d <= length b -> p + length d <= m -> skipn m (splice b p d) = skipn m b.
Proof.
  intros b d p m L M. unfold splice. rewrite app_assoc, skipn_app.
  assert (E : length (firstn p b ++ d) = p + length d) by (rewrite app_length, firstn_length; lia).
  rewrite skipn_all2 by lia. rewrite E. cbn [app]. rewrite Base.skipn_skipn || rewrite skipn_skipn.
  f_equal. lia.
Qed.

Lemma link_loop_ok : forall d port, (forall i x, d_link d port i = inr x -> length x = 8) ->
  forall n i b ptr avail b' ptr' avail', ptr <= length b ->
  link_loop d port n i b ptr avail = inr (b', ptr', avail') ->
  exists l, blocks (d_link d port) i n = Some l /\ ptr' = ptr + length (concat l) /\ ptr' + avail' = ptr + avail /\
    firstn ptr' b' = firstn ptr b ++ concat l /\ length b' = length b /\ ptr' <= length b' /\
    (forall m, ptr + avail <= m -> skipn m b' = skipn m b).
Proof.
  intros d port D. induction n as [|n IH]; intros i b ptr avail b' ptr' avail' P H; cbn [link_loop] in H.
  - injection H as <- <- <-. exists []. cbn. rewrite app_nil_r. repeat split; lia || auto.
  - destruct (avail <? LINK_BLOCK) eqn:A; [discriminate|]. apply Nat.ltb_ge in A.
    destruct (d_link d port i) as [e|x] eqn:X; [discriminate|].
    pose proof (D _ _ X) as LX.
    destruct (length b <? ptr + length x) eqn:B; [discriminate|]. apply Nat.ltb_ge in B.
    pose proof (length_splice b ptr x B) as LS. unfold LINK_BLOCK in *.
    apply IH in H; [|lia]. destruct H as (l & HB & HP & HA & HF & HL & HQ & HS).
    exists (x :: l). cbn [blocks concat]. rewrite X, HB, app_length. split; [reflexivity|].
    split; [lia|]. split; [lia|]. split.
    { rewrite HF. replace (ptr + 8) with (ptr + length x) by lia. rewrite firstn_splice_data by exact P. now rewrite app_assoc. }
    split; [lia|]. split; [lia|].
    intros m M. rewrite HS by lia. apply skipn_splice_after; lia.
Qed.

Lemma selective_loop_ok : forall d port, (forall i x, d_selective d port i = inr x -> length x = 200) ->
  forall n i b ptr avail b' ptr' avail', ptr <= length b ->
  selective_loop d port n i b ptr avail = inr (b', ptr', avail') ->
  exists l, blocks (d_selective d port) i n = Some l /\ ptr' = ptr + length (concat (map used l)) /\ ptr' + avail' = ptr + avail /\
    firstn ptr' b' = firstn ptr b ++ concat (map used l) /\ length b' = length b /\ ptr' <= length b' /\
    (forall m, ptr + avail <= m -> skipn m b' = skipn m b).
Proof.
  intros d port D. induction n as [|n IH]; intros i b ptr avail b' ptr' avail' P H; cbn [selective_loop] in H.
  - injection H as <- <- <-. exists []. cbn. rewrite app_nil_r. repeat split; lia || auto.
  - destruct (avail <? SEL_BLOCK) eqn:A; [discriminate|]. apply Nat.ltb_ge in A. change SEL_BLOCK with 200 in A.
    destruct (d_selective d port i) as [e|x] eqn:X; [discriminate|].
    pose proof (D _ _ X) as LX.
    destruct (length b <? ptr + length x) eqn:B; [discriminate|]. apply Nat.ltb_ge in B.
    pose proof (length_splice b ptr x B) as LS.
    pose proof (nth_splice_in b ptr x 0 0%N B ltac:(lia)) as NS. rewrite Nat.add_0_r in NS.
    cbv zeta in H. rewrite NS in H. unfold SEL_FIXED, ADDR_BLOCK in H.
    set (k := N.to_nat (nth 0 x 0 mod 16)%N) in *.
    assert (K : k <= 15) by (unfold k; pose proof (N.mod_lt (nth 0 x 0%N) 16 ltac:(discriminate)); lia).
    assert (LU : length (used x) = 20 + 12 * k) by (unfold used; rewrite firstn_length; fold k; lia).
    apply IH in H; [|lia]. destruct H as (l & HB & HP & HA & HF & HL & HQ & HS).
    exists (x :: l). cbn [blocks map concat]. rewrite X, HB, app_length. split; [reflexivity|].
    split; [lia|]. split; [lia|]. split.
    { rewrite HF. rewrite app_assoc. f_equal.
      pose proof (firstn_splice_data b x ptr P) as FS.
      replace (ptr + (20 + k * 12)) with (min (ptr + length (used x)) (ptr + length x)) by lia.
      rewrite <- firstn_firstn, FS, firstn_app, firstn_firstn, firstn_length.
      replace (min (ptr + length (used x)) ptr) with ptr by lia. f_equal.
      unfold used at 2. fold k. f_equal. lia. }
    split; [lia|]. split; [lia|].
    intros m M. rewrite HS by lia. apply skipn_splice_after; lia.
Qed.

Lemma link_loop_not_ok : forall d port n i b ptr avail, link_loop d port n i b ptr avail <> inl Ok.
Proof.
  intros d port. induction n as [|n IH]; intros; cbn [link_loop]; [discriminate|].
  destruct (avail <? LINK_BLOCK); [discriminate|]. destruct (d_link d port i); [discriminate|].
  destruct (length b <? ptr + length l); [discriminate|]. apply IH.
Qed.

Lemma selective_loop_not_ok : forall d port n i b ptr avail, selective_loop d port n i b ptr avail <> inl Ok.
Proof.
  intros d port. induction n as [|n IH]; intros; cbn [selective_loop]; [discriminate|].
  destruct (avail <? SEL_BLOCK); [discriminate|]. destruct (d_selective d port i); [discriminate|].
  destruct (length b <? ptr + length l); [discriminate|]. apply IH.
Qed.

(** A query is answered with the data of the asked port: its header, and then as many
    link and selective blocks as its capabilities say, the latter without the
    address blocks they do not have.  The reply fits the room, and nothing behind
    the room is written. *)
Theorem C84_query : forall d room b, nth 0 b 0%N = 0%N -> room <= length b ->
  (forall p i x, d_link d p i = inr x -> length x = 8) -> (forall p i x, d_selective d p i = inr x -> length x = 200) ->
  forall o, process true d room b 3 = o -> status o = Ok ->
  exists bus devfn segment maxp cap ctl links sels,
    let port := nth 2 b 0%N in
    d_info d port = inr (bus, devfn, segment, maxp) /\ d_capability d port = inr cap /\ d_control d port = inr ctl /\
    blocks (d_link d port) 0 (if N.testbit cap 0 then N.to_nat ((cap / 2 ^ 13) mod 8) + 1 else 0) = Some links /\
    blocks (d_selective d port) 0 (if N.testbit cap 1 then N.to_nat ((cap / 2 ^ 16) mod 256) + 1 else 0) = Some sels /\
    firstn (reply o) (buffer o) =
      [1; 0; port; devfn; bus; segment; maxp]%N ++ le32 cap ++ le32 ctl ++ concat links ++ concat (map used sels) /\
    reply o = 15 + length (concat links) + length (concat (map used sels)) /\
    reply o <= room /\ skipn room (buffer o) = skipn room b /\ calls o = [].
Proof.
  intros d room b T R DL DS o <-. assert (P : process true d room b 3 = query d room b 3) by (unfold process; rewrite T; reflexivity).
  rewrite P. unfold query. cbv zeta. change (negb (3 =? QUERY_LEN)) with false. cbv iota.
  change QUERY_RESP with 15. set (port := nth 2 b 0%N).
  destruct (length b <? 15) eqn:LB; [discriminate|]. apply Nat.ltb_ge in LB.
  destruct (d_info d port) as [e|[[[bus devfn] segment] maxp]] eqn:I; [discriminate|].
  destruct (d_capability d port) as [e|cap] eqn:C; [discriminate|].
  destruct (d_control d port) as [e|ctl] eqn:CT; [discriminate|].
  destruct (room <? 15) eqn:RM; [discriminate|]. apply Nat.ltb_ge in RM.
  set (h := [1%N; 0%N; port; devfn; bus; segment; maxp] ++ le32 cap ++ le32 ctl).
  assert (LH : length h = 15) by reflexivity.
  pose proof (length_splice b 0 h ltac:(lia)) as LS.
  pose proof (firstn_splice_data b h 0 ltac:(lia)) as FS. cbn [Nat.add firstn app] in FS. rewrite LH in FS.
  set (L := if link_supported cap then _ else _).
  assert (HL : forall b1 p1 a1, L = inr (b1, p1, a1) ->
     exists l, blocks (d_link d port) 0 (if N.testbit cap 0 then N.to_nat ((cap / 2 ^ 13) mod 8) + 1 else 0) = Some l /\
       p1 = 15 + length (concat l) /\ p1 + a1 = room /\ firstn p1 b1 = h ++ concat l /\ length b1 = length b /\ p1 <= length b1 /\
       skipn room b1 = skipn room b).
  { intros b1 p1 a1 E. unfold L, link_supported in E. destruct (N.testbit cap 0).
    - apply link_loop_ok in E; [|apply DL|lia]. destruct E as (l & E1 & E2 & E3 & E4 & E5 & E6 & E7).
      exists l. rewrite FS in E4. split; [exact E1|]. repeat split; try assumption; try lia.
      rewrite E7 by lia. apply skipn_splice_after; lia.
    - injection E as <- <- <-. exists []. cbn [concat blocks]. rewrite app_nil_r. cbn [length].
      repeat split; try assumption; try lia. apply skipn_splice_after; lia. }
  assert (NL : L <> inl Ok) by (unfold L; destruct (link_supported cap); [apply link_loop_not_ok|discriminate]).
  destruct L as [e|[[b1 p1] a1]]; [intros Q; cbn in Q; subst e; now elim NL|].
  destruct (HL _ _ _ eq_refl) as (links & L1 & L2 & L3 & L4 & L5 & L6 & L7). clear HL NL.
  set (S := if selective_supported cap then _ else _).
  assert (HS : forall b2 p2 a2, S = inr (b2, p2, a2) ->
     exists l, blocks (d_selective d port) 0 (if N.testbit cap 1 then N.to_nat ((cap / 2 ^ 16) mod 256) + 1 else 0) = Some l /\
       p2 = p1 + length (concat (map used l)) /\ p2 + a2 = room /\ firstn p2 b2 = h ++ concat links ++ concat (map used l) /\
       skipn room b2 = skipn room b).
  { intros b2 p2 a2 E. unfold S, selective_supported in E. destruct (N.testbit cap 1).
    - apply selective_loop_ok in E; [|apply DS|lia]. destruct E as (l & E1 & E2 & E3 & E4 & E5 & E6 & E7).
      exists l. rewrite L4, <- app_assoc in E4. split; [exact E1|]. repeat split; try assumption; try lia.
      rewrite E7 by lia. exact L7.
    - injection E as <- <- <-. exists []. cbn [concat map blocks]. rewrite app_nil_r. cbn [length].
      repeat split; try assumption; lia. }
  assert (NS : S <> inl Ok) by (unfold S; destruct (selective_supported cap); [apply selective_loop_not_ok|discriminate]).
  destruct S as [e|[[b2 p2] a2]]; [intros Q; cbn in Q; subst e; now elim NS|].
  destruct (HS _ _ _ eq_refl) as (sels & S1 & S2 & S3 & S4 & S5). clear HS NS.
  intros _. exists bus, devfn, segment, maxp, cap, ctl, links, sels. cbn [reply buffer calls].
  split; [reflexivity|]. split; [reflexivity|]. split; [reflexivity|]. split; [exact L1|]. split; [exact S1|].
  split; [rewrite S4; unfold h; now rewrite <- !app_assoc|]. repeat split; try assumption; lia.
Qed.
Print Assumptions C84_query.

Lemma link_loop_room : forall d port, (forall i x, d_link d port i = inr x -> length x = 8) ->
  forall n i b ptr avail l, blocks (d_link d port) i n = Some l -> 8 * n <= avail -> ptr + avail <= length b ->
  exists b', link_loop d port n i b ptr avail = inr (b', ptr + 8 * n, avail - 8 * n) /\ length b' = length b.
Proof.
  intros d port D. induction n as [|n IH]; intros i b ptr avail l B A R; cbn [link_loop blocks] in *.
  - exists b. rewrite Nat.mul_0_r, Nat.add_0_r, Nat.sub_0_r. now split.
  - unfold LINK_BLOCK. destruct (avail <? 8) eqn:E; [apply Nat.ltb_lt in E; lia|].
    destruct (d_link d port i) as [e|x] eqn:X; [discriminate|]. pose proof (D _ _ X) as LX.
    destruct (blocks (d_link d port) (S i) n) as [t|] eqn:T; [|discriminate].
    destruct (length b <? ptr + length x) eqn:F; [apply Nat.ltb_lt in F; lia|].
    pose proof (length_splice b ptr x ltac:(lia)) as LS.
    destruct (IH (S i) (splice b ptr x) (ptr + 8) (avail - 8) t T ltac:(lia) ltac:(lia)) as (b' & H & L).
    exists b'. rewrite H. replace (ptr + 8 + 8 * n) with (ptr + 8 * S n) by lia.
    replace (avail - 8 - 8 * n) with (avail - 8 * S n) by lia. split; [reflexivity | lia].
Qed.

Lemma selective_loop_room : forall d port, (forall i x, d_selective d port i = inr x -> length x = 200) ->
  forall n i b ptr avail l, blocks (d_selective d port) i n = Some l -> 200 * n <= avail -> ptr + avail <= length b ->
  exists r, selective_loop d port n i b ptr avail = inr r.
Proof.
  intros d port D. induction n as [|n IH]; intros i b ptr avail l B A R; cbn [selective_loop blocks] in *.
  - eexists. reflexivity.
  - change SEL_BLOCK with 200. destruct (avail <? 200) eqn:E; [apply Nat.ltb_lt in E; lia|].
    destruct (d_selective d port i) as [e|x] eqn:X; [discriminate|]. pose proof (D _ _ X) as LX.
    destruct (blocks (d_selective d port) (S i) n) as [t|] eqn:T; [|discriminate].
    destruct (length b <? ptr + length x) eqn:F; [apply Nat.ltb_lt in F; lia|].
    pose proof (length_splice b ptr x ltac:(lia)) as LS. cbv zeta. unfold SEL_FIXED, ADDR_BLOCK.
    set (y := nth ptr _ 0%N). pose proof (N.mod_lt y 16 ltac:(discriminate)).
    apply (IH (S i) _ _ _ t T); lia.
Qed.

(** A query is answered if the driver has all the data and there is room for the
    blocks in full. *)
Theorem C84_query_answered : forall d room b bus devfn segment maxp cap ctl links sels,
  nth 0 b 0%N = 0%N -> room <= length b ->
  (forall p i x, d_link d p i = inr x -> length x = 8) -> (forall p i x, d_selective d p i = inr x -> length x = 200) ->
  let port := nth 2 b 0%N in
  let nl := if N.testbit cap 0 then N.to_nat ((cap / 2 ^ 13) mod 8) + 1 else 0 in
  let ns := if N.testbit cap 1 then N.to_nat ((cap / 2 ^ 16) mod 256) + 1 else 0 in
  d_info d port = inr (bus, devfn, segment, maxp) -> d_capability d port = inr cap -> d_control d port = inr ctl ->
  blocks (d_link d port) 0 nl = Some links -> blocks (d_selective d port) 0 ns = Some sels ->
  15 + 8 * nl + 200 * ns <= room ->
  status (process true d room b 3) = Ok.
Proof.
  intros d room b bus devfn segment maxp cap ctl links sels T R DL DS port nl ns I C CT BL BS RM.
  assert (P : process true d room b 3 = query d room b 3) by (unfold process; rewrite T; reflexivity).
  rewrite P. unfold query. cbv zeta. change (negb (3 =? QUERY_LEN)) with false. cbv iota.
  change QUERY_RESP with 15. fold port. rewrite I, C, CT.
  destruct (length b <? 15) eqn:E; [apply Nat.ltb_lt in E; lia|].
  destruct (room <? 15) eqn:E'; [apply Nat.ltb_lt in E'; lia|].
  match goal with |- context [splice b 0 ?h] => pose proof (length_splice b 0 h) as LS; set (b0 := splice b 0 h) in * end.
  specialize (LS ltac:(apply Nat.ltb_ge in E; cbn; lia)).
  assert (HL : exists b1, (if link_supported cap then link_loop d port (link_count cap + 1) 0 b0 15 (room - 15) else inr (b0, 15, room - 15))
                = inr (b1, 15 + 8 * nl, room - 15 - 8 * nl) /\ length b1 = length b0).
  { unfold link_supported. subst nl. destruct (N.testbit cap 0).
    - apply link_loop_room with (l := links); [apply DL | exact BL | |]; lia.
    - exists b0. rewrite Nat.mul_0_r, Nat.add_0_r, Nat.sub_0_r. now split. }
  destruct HL as (b1 & -> & L1). unfold selective_supported. destruct (N.testbit cap 1) eqn:S1; [|reflexivity].
  destruct (selective_loop_room d port (DS port) ns 0 b1 (15 + 8 * nl) (room - 15 - 8 * nl) sels BS ltac:(lia) ltac:(lia)) as ([[b2 p2] a2] & H).
  subst ns. unfold selective_count. cbv iota in H. rewrite H. reflexivity.
Qed.
Print Assumptions C84_query_answered.

(** REFUTED: that a key never stays behind.  A KEY_PROG with one byte too many is
    refused by its acknowledgement, but its key and IV stay in the buffer of the
    message. *)
Theorem C84_key_left_refuted : forall d room b, 48 <= length b -> nth 0 b 0%N = 2%N ->
  calls (process true d room b 48) = [] /\ status (process true d room b 48) = Ok /\
  window 7 41 (buffer (process true d room b 48)) = window 7 41 b.
Proof.
  intros d room b L T. assert (P : process true d room b 48 = key_prog d b 48) by (unfold process; rewrite T; reflexivity).
  rewrite P. unfold key_prog. change (negb (48 =? KEY_INFO + KEY_BUFFER)) with true. cbv iota. unfold KEY_INFO.
  destruct (length b <? 7) eqn:E; [apply Nat.ltb_lt in E; lia|].
  destruct (seven b ltac:(lia)) as (a0 & a1 & a2 & a3 & a4 & a5 & a6 & t & ->). repeat split.
Qed.
Print Assumptions C84_key_left_refuted.

(** REFUTED: that a reply has only what the requester sent and the status.  A KEY_PROG of a single
    byte is acknowledged with five bytes that an earlier message left in the
    buffer. *)
Theorem C84_old_bytes_refuted : forall d room b, 7 <= length b -> nth 0 b 0%N = 2%N ->
  reply (process true d room b 1) = 7 /\
  firstn 7 (buffer (process true d room b 1)) = [3; nth 1 b 0; nth 2 b 0; nth 3 b 0; 1; nth 5 b 0; nth 6 b 0]%N.
Proof.
  intros d room b L T. assert (P : process true d room b 1 = key_prog d b 1) by (unfold process; rewrite T; reflexivity).
  rewrite P. unfold key_prog. change (negb (1 =? KEY_INFO + KEY_BUFFER)) with true. cbv iota. unfold KEY_INFO.
  destruct (length b <? 7) eqn:E; [apply Nat.ltb_lt in E; lia|].
  destruct (seven b ltac:(lia)) as (a0 & a1 & a2 & a3 & a4 & a5 & a6 & t & ->). split; reflexivity.
Qed.
Print Assumptions C84_old_bytes_refuted.

(** REFUTED: that a query in a message too small for the reply is refused.  The
    header of the reply is written before the room is checked: in a buffer of
    three bytes this writes past the end. *)
Theorem C84_query_overrun_refuted : forall d port, status (process true d 3 [0; 0; port]%N 3) = Over.
Proof. reflexivity. Qed.
Print Assumptions C84_query_overrun_refuted.

(** Non-vacuity: a port with two link streams and one selective stream with one
    address block; a key is programmed, used and no longer used. *)
Definition cap1 : N := (1 + 2 + 1 * 2 ^ 13)%N.
Definition sel1 : list N := 1%N :: repeat 9%N 199.
Definition drv : driver :=
  Drv (fun p => if (p =? 4)%N then inr (7, 8, 0, 4)%N else inl 5%N) (fun _ => inr cap1) (fun _ => inr 3%N)
      (fun _ i => inr (repeat (N.of_nat i) 8)) (fun _ i => inr sel1) None 0%N 11%N.
Definition room1 : nat := 240.
Example C84_example :
  let q := process true drv room1 ([0; 0; 4]%N ++ repeat 0%N 300) 3 in
  status q = Ok /\ reply q = 15 + 16 + 32 /\
  firstn 15 (buffer q) = [1; 0; 4; 8; 7; 0; 4; 3; 32; 0; 0; 3; 0; 0; 0]%N /\
  window 15 18 (buffer q) = (repeat 0 8 ++ repeat 1 8 ++ [1; 9])%N /\
  status (process true drv room1 ([0; 0; 3]%N ++ repeat 0%N 300) 3) = Driver 5%N /\
  status (process true drv 200 ([0; 0; 4]%N ++ repeat 0%N 300) 3) = OutOfSpace /\
  (let r := process true drv room1 ([2; 0; 0; 1; 0; 35; 4] ++ repeat 170 32 ++ repeat 85 8)%N 47 in
   calls r = [KeyProg (KeyId 4 1 1 1 2) (repeat 170%N 32) (repeat 85%N 8)] /\
   buffer r = ([3; 0; 0; 1; 0; 35; 4] ++ repeat 0 40)%N) /\
  process true drv room1 [4; 0; 0; 1; 0; 35; 4]%N 7 = Out Ok 7 [6; 0; 0; 1; 0; 35; 4]%N [SetGo (KeyId 4 1 1 1 2)] /\
  process true drv room1 [5; 0; 0; 1; 0; 35; 4]%N 7 = Out (Driver 11%N) 0 [5; 0; 0; 1; 0; 35; 4]%N [SetStop (KeyId 4 1 1 1 2)] /\
  process false drv room1 [4; 0; 0; 1; 0; 35; 4]%N 7 = Out SecureRequired 0 [4; 0; 0; 1; 0; 35; 4]%N [].
Proof. vm_compute. repeat split. Qed.
Example C84_example_driver :
  (forall p i x, d_link drv p i = inr x -> length x = 8) /\ (forall p i x, d_selective drv p i = inr x -> length x = 200).
Proof. split; intros p i x H; cbn in H; injection H as <-; reflexivity. Qed.
