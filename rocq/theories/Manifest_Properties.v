(** Manifests: the properties C45 and C46. *)
From Coq Require Import List NArith Lia Bool Arith.
From Coq Require Import ZifyBool ZifyNat ZifyN.
From Verif Require Import Base Pcr_Proofs Manifest_Model Manifest_Spec Manifest_Proofs Manifest_Verify_Proofs Manifest_Total_Proofs
  Manifest_Element_Proofs Manifest_Find_Proofs.
Import ListNotations.
Local Open Scope N_scope.

(** * C45: what is accepted *)

(** A manifest of the current formats that was accepted was, byte by byte, read from the flash in a run of bytes [D]
    whose hash was signed, and everything kept about it (identifier, number of entries, hash of the table of contents,
    platform ID) is what [D] contains.  This holds even if the flash changes during the verification. *)
Theorem C45_verify : forall hash sig_ok c rd eng s0 s s' m,
  flash_ok rd -> c_size c < 2 ^ 32 -> c_addr c + 65536 <= 2 ^ 32 ->
  verify hash sig_ok c rd eng s0 s = (s', Ok m) ->
  (h_magic (s_header m) = c_v1 c -> c_v1 c = 65535) ->
  exists D t ts,
    read_at rd (c_addr c) D /\
    layout (h_magic (s_header m) =? c_v3 c) D (s_header m) (s_type m) (s_hl m) t (s_root m) (s_platform m) ts /\
    s_entries m = N.of_nat (entries_of t ts) /\
    N.of_nat (length D) + h_sig (s_header m) = h_length (s_header m) /\
    N.of_nat (length (s_sig m)) = h_sig (s_header m) /\ 0 < h_sig (s_header m) <= c_max_sig c /\
    read_at rd (c_addr c + N.of_nat (length D)) (s_sig m) /\
    s_digest m = Some (hash (N.land (h_sigtype (s_header m)) 7 + 1) D) /\
    sig_ok (hash (N.land (h_sigtype (s_header m)) 7 + 1) D) (s_sig m) = true /\
    N.of_nat (length (s_platform m)) <= c_max_id c /\
    s_valid m = true /\ (h_magic (s_header m) = c_v2 c \/ h_magic (s_header m) = c_v3 c).
Proof.
  intros hash sig_ok c rd eng s0 s s' m Hrd Hs Ha H V1.
  pose proof (verify_ok c rd Hrd Hs Ha hash sig_ok eng s0 s s' m H) as ((A1 & A2 & A3 & A4 & A5 & A6 & A7) & B).
  assert (MG: h_magic (s_header m) = c_v1 c \/ h_magic (s_header m) = c_v2 c \/ h_magic (s_header m) = c_v3 c).
  { clear - H Hrd Hs Ha. unfold verify in H. cbv zeta in H. apply bind_ok in H. destruct H as (s1 & [h raw] & R & H). apply (read_header_ok c rd Hrd Hs Ha hash sig_ok) in R. destruct R as (_ & _ & _ & _ & R & _).
    steps. destruct (_ && _); steps; [cbn; exact R|]. match goal with X : (N * N * root)%type |- _ => destruct X as [[? ?] ?] end. steps. cbn. exact R. }
  destruct (N.eqb_spec (c_v1 c) 65535) as [E|E]; destruct (N.eqb_spec (h_magic (s_header m)) (c_v1 c)) as [E2|E2]; cbn [negb andb] in B; try congruence; try (exfalso; now apply E, V1).
  all: destruct B as ((D & t & ts & B1 & B2 & B3 & B4 & B5 & B6) & B7); exists D, t, ts; rewrite A3 in B3;
    replace (c_addr c + N.of_nat (length D)) with (c_addr c + h_length (s_header m) - h_sig (s_header m)) by lia;
    repeat (split; [assumption|]); destruct MG as [Q|Q]; [congruence|exact Q].
Qed.
Print Assumptions C45_verify.

(** On a flash nobody changes, what was accepted of any format is what the flash holds. *)
Lemma stable_ok : forall m, (forall a, m a < 256) -> flash_ok (stable m).
Proof.
  intros m B k a n l H. unfold stable in H. injection H as <-. split; [apply length_img_read|]. unfold bytes_ok, img_read. rewrite Forall_forall. intros x I0.
  apply in_map_iff in I0. destruct I0 as (i & <- & _). apply B.
Qed.
Lemma stable_read : forall m a l, read_at (stable m) a l -> l = img_read m a (length l).
Proof.
  intros m a l H. apply nth_ext_len with (d := 0); [now rewrite length_img_read|]. intros i L. destruct (H i L) as (k & b & n & d & R & B & E).
  unfold stable in R. injection R as <-. rewrite <- E, !nth_img_read by lia. f_equal. lia.
Qed.

Theorem C45_flash : forall hash sig_ok c img eng s0 s s' m,
  (forall a, img a < 256) -> c_size c < 2 ^ 32 -> c_addr c + 65536 <= 2 ^ 32 ->
  verify hash sig_ok c (stable img) eng s0 s = (s', Ok m) ->
  exists n, N.of_nat n + h_sig (s_header m) = h_length (s_header m) /\ (12 <= n)%nat /\
    s_header m = parse_header (img_read img (c_addr c) 12) /\
    sig_ok (hash (N.land (h_sigtype (s_header m)) 7 + 1) (img_read img (c_addr c) n))
           (img_read img (c_addr c + N.of_nat n) (N.to_nat (h_sig (s_header m)))) = true.
Proof.
  intros hash sig_ok c img eng s0 s s' m HB Hs Ha H. pose proof (stable_ok img HB) as Hrd.
  assert (HE: s_header m = parse_header (img_read img (c_addr c) 12)).
  { clear - H Hrd Hs Ha. unfold verify in H. cbv zeta in H. apply bind_ok in H. destruct H as (s1 & [h raw] & R & H). apply (read_header_ok c _ Hrd Hs Ha hash sig_ok) in R. destruct R as (R1 & R & R2 & _).
    apply stable_read in R2. assert (length raw = 12%nat) as L by (rewrite R1; reflexivity). rewrite L in R2. rewrite <- R2, <- R. clear - H. 
    steps. destruct (_ && _); steps; [reflexivity|]. match goal with X : (N * N * root)%type |- _ => destruct X as [[? ?] ?] end. steps. reflexivity. }
  pose proof (verify_ok c (stable img) Hrd Hs Ha hash sig_ok eng s0 s s' m H) as ((A1 & A2 & A3 & A4 & A5 & A6 & A7) & B).
  assert (DD: exists D, N.of_nat (length D) + h_sig (s_header m) = h_length (s_header m) /\ read_at (stable img) (c_addr c) D /\
        sig_ok (hash (N.land (h_sigtype (s_header m)) 7 + 1) D) (s_sig m) = true).
  { destruct (negb _ && _); [destruct B as (D & B1 & B2 & B3 & B4); eauto|]. destruct B as ((D & t & ts & B1 & B2 & B3 & B4 & B5 & B6) & B7). eauto. }
  destruct DD as (D & D1 & D2 & D3). apply stable_read in D2, A7. exists (length D). split; [auto|]. split; [lia|]. split; [auto|].
  rewrite <- D2. replace (N.to_nat (h_sig (s_header m))) with (length (s_sig m)) by lia.
  replace (c_addr c + N.of_nat (length D)) with (c_addr c + h_length (s_header m) - h_sig (s_header m)) by lia. rewrite <- A7. exact D3.
Qed.
Print Assumptions C45_flash.

(** Verification ends: the loop over the tables of contents runs 64 times at most, whatever the flash holds. *)
Theorem C45_ends : forall hash sig_ok c rd eng s0 s s',
  flash_ok rd -> c_size c < 2 ^ 32 -> c_addr c + 65536 <= 2 ^ 32 ->
  verify hash sig_ok c rd eng s0 s <> (s', Err MEndless).
Proof. intros hash sig_ok c rd eng s0 s s' Hrd Hs Ha. exact (verify_ends c rd Hrd Hs Ha hash sig_ok eng s0 s s'). Qed.
Print Assumptions C45_ends.

(** Every manifest of the current formats that is laid out as it should be and is signed is accepted. *)
Theorem C45_accepts : forall hash sig_ok c img eng s0 s D h ty hl t root_hash id ts sig,
  (forall k, eng k = true) -> c_size c < 2 ^ 32 ->
  layout (h_magic h =? c_v3 c) D h ty hl t root_hash id ts ->
  (h_magic h = c_v2 c \/ h_magic h = c_v3 c) -> h_magic h <> 65535 -> h_magic h <> c_v1 c ->
  N.of_nat (length D) + h_sig h = h_length h -> N.of_nat (length sig) = h_sig h -> 0 < h_sig h <= c_max_sig c ->
  hash_len (N.land (h_sigtype h) 7 + 1) <> None -> N.of_nat (length id) <= c_max_id c ->
  c_addr c + h_length h <= c_size c -> img_read img (c_addr c) (length (D ++ sig)) = D ++ sig ->
  sig_ok (hash (N.land (h_sigtype h) 7 + 1) D) sig = true ->
  exists s', verify hash sig_ok c (stable img) eng s0 s =
    (s', Ok (MState h (N.of_nat (entries_of t ts)) root_hash ty hl (Some (hash (N.land (h_sigtype h) 7 + 1) D)) true (h_magic h =? c_v3 c) sig id)).
Proof.
  intros hash sig_ok c img eng s0 s D h ty hl t root_hash id ts sig He Hs L MG NS NV LD LS HS HL HI SZ HD SG.
  destruct (runs_verify c img Hs eng He hash sig_ok D h ty hl t root_hash id ts sig s0 (snd s) L MG NS NV LD LS HS HL HI SZ HD SG) as (acc' & R).
  destruct (R (fst s)) as (k' & E). rewrite <- surjective_pairing in E. eauto.
Qed.
Print Assumptions C45_accepts.

(** * A manifest *)

Definition toy_hash (ty : N) (l : list N) : list N := repeat (fold_left N.add l 0 mod 256) 32.
Definition toy_sig (d s : list N) : bool := if list_eq_dec N.eq_dec (firstn 4 d) s then true else false.
Definition toy_cfg : mcfg := MCfg 0 65535 20557 20558 8 16 4096.
Definition toy_h : mheader := MHeader 115 20557 7 4 0.
Definition toy_platform : tentry := TEntry 0 255 1 255 96 9.
Definition toy_entry : tentry := TEntry 16 255 1 0 105 6.
Definition toy_data : list N := [10; 20; 30; 40; 50; 60].
Definition toy_t : toc := Toc [toy_platform; toy_entry] [toy_hash 1 toy_data] 0 0.
Definition toy_id : list N := [65; 66; 67; 68; 69].
Definition toy_D : list N :=
  enc_header toy_h 0 ++ enc_toc toy_t ++ toy_hash 1 (enc_toc toy_t) ++ [] ++ ([5; 0; 0; 0] ++ toy_id) ++ toy_data.
Definition toy_signature : list N := firstn 4 (toy_hash 1 toy_D).
Definition toy_img : image := fun a => nth (N.to_nat a) (toy_D ++ toy_signature) 0.
Definition toy_m : mstate :=
  MState toy_h 2 (toy_hash 1 (enc_toc toy_t)) 1 32 (Some (toy_hash 1 toy_D)) true false toy_signature toy_id.

Lemma toy_toc_ok : toc_ok false 1 32 12 32 toy_t.
Proof.
  constructor.
  - discriminate.
  - cbn. lia.
  - repeat constructor.
  - repeat constructor; cbn; lia.
  - reflexivity.
  - cbn. lia.
  - intros [|[|i]] e H T; [injection H as <-; discriminate T|injection H as <-; discriminate T|destruct i; discriminate H].
Qed.
Lemma toy_layout : layout false toy_D toy_h 1 32 toy_t (toy_hash 1 (enc_toc toy_t)) toy_id [].
Proof.
  constructor.
  - exists 0, [], toy_platform, 0, 0, 0, toy_data. split; [reflexivity|]. split; [reflexivity|]. split; [reflexivity|]. constructor.
  - unfold header_fits. cbn. lia.
  - split; reflexivity.
  - apply toy_toc_ok.
Qed.
Lemma toy_linked : linked toy_hash 1 (toy_hash 1 (enc_toc toy_t)) toy_t [].
Proof. now apply linked_one. Qed.
Lemma toy_img_byte : forall a, toy_img a < 256.
Proof.
  intros a. unfold toy_img. assert (F: forallb (fun x => x <? 256) (toy_D ++ toy_signature) = true) by (vm_compute; reflexivity).
  destruct (nth_in_or_default (N.to_nat a) (toy_D ++ toy_signature) 0) as [H| ->]; [|reflexivity].
  rewrite forallb_forall in F. apply F in H. lia.
Qed.

Example C45_verify_ex : exists s', flash_ok (stable toy_img) /\
  verify toy_hash toy_sig toy_cfg (stable toy_img) (fun _ => true) no_state (0%nat, []) = (s', Ok toy_m) /\
  h_magic (s_header toy_m) <> c_v1 toy_cfg.
Proof. eexists. split; [apply stable_ok, toy_img_byte|]. split; [vm_compute; reflexivity|discriminate]. Qed.
Example C45_rejects_ex : exists s',
  verify toy_hash toy_sig toy_cfg (stable (fun a => if a =? 107 then 31 else toy_img a)) (fun _ => true) no_state (0%nat, []) = (s', Err MBadSignature).
Proof. eexists. vm_compute. reflexivity. Qed.
Example C45_accepts_ex :
  layout (h_magic toy_h =? c_v3 toy_cfg) toy_D toy_h 1 32 toy_t (toy_hash 1 (enc_toc toy_t)) toy_id [] /\
  N.of_nat (length toy_D) + h_sig toy_h = h_length toy_h /\
  img_read toy_img (c_addr toy_cfg) (length (toy_D ++ toy_signature)) = toy_D ++ toy_signature /\
  toy_sig (toy_hash (N.land (h_sigtype toy_h) 7 + 1) toy_D) toy_signature = true.
Proof. split; [apply toy_layout|]. repeat split; vm_compute; reflexivity. Qed.

(** The older format is hashed from the flash after its header was read from there: if the flash can change in between,
    what is kept of the header, such as the identifier, need not be what was signed. *)
Definition face (k : nat) : list N :=
  enc_header (MHeader 20 1 (match k with O => 2 | _ => 1 end) 4 0) 0 ++ [1; 2; 3; 4; 9; 9; 9; 9].
Definition two_faced (k : nat) (a : N) (n : nat) : option (list N) := Some (img_read (fun b => nth (N.to_nat b) (face k) 0) a n).
Lemma two_faced_ok : flash_ok two_faced.
Proof.
  intros k a n l H. apply (stable_ok (fun b => nth (N.to_nat b) (face k) 0)) with (k := k) (a := a); [|exact H].
  intros b. assert (F: forallb (fun x => x <? 256) (face k) = true) by (destruct k; vm_compute; reflexivity).
  destruct (nth_in_or_default (N.to_nat b) (face k) 0) as [I0| ->]; [|reflexivity].
  rewrite forallb_forall in F. apply F in I0. lia.
Qed.
Theorem C45_v1_header_refuted :
  ~ (forall hash sig_ok c rd eng s0 s s' m, flash_ok rd -> c_size c < 2 ^ 32 -> c_addr c + 65536 <= 2 ^ 32 ->
      verify hash sig_ok c rd eng s0 s = (s', Ok m) ->
      exists D, sig_ok (hash (N.land (h_sigtype (s_header m)) 7 + 1) D) (s_sig m) = true /\ firstn 4 (skipn 4 D) = le32 (h_id (s_header m))).
Proof.
  intros H.
  set (ok := fun (d s : list N) => if list_eq_dec N.eq_dec d (firstn 16 (face 1)) then true else false).
  set (c := MCfg 0 1 20557 20558 8 16 4096).
  assert (V: exists s' m, verify (fun _ l => l) ok c two_faced (fun _ => true) no_state (0%nat, []) = (s', Ok m) /\ h_id (s_header m) = 2)
    by (eexists; eexists; split; [vm_compute; reflexivity|reflexivity]).
  destruct V as (s' & m & V & I2).
  destruct (H (fun _ l => l) ok c two_faced (fun _ => true) no_state (0%nat, []) s' m) as (D & K & W); [exact two_faced_ok|reflexivity|cbn; lia|exact V|].
  unfold ok in K. destruct (list_eq_dec N.eq_dec D (firstn 16 (face 1))) as [->|]; [|discriminate].
  rewrite I2 in W. discriminate W.
Qed.
Print Assumptions C45_v1_header_refuted.

(** An entry need not point into the signed part: one that has no hash either may give data that nobody signed. *)
Definition out_t : toc := Toc [toy_platform; TEntry 16 255 1 255 115 2] [toy_hash 1 toy_data] 0 0.
Definition out_D : list N :=
  enc_header toy_h 0 ++ enc_toc out_t ++ toy_hash 1 (enc_toc out_t) ++ [] ++ ([5; 0; 0; 0] ++ toy_id) ++ toy_data.
Definition out_img (x y : N) : image := fun a => nth (N.to_nat a) (out_D ++ firstn 4 (toy_hash 1 out_D) ++ [x; y]) 0.
Theorem C45_element_outside_refuted :
  ~ (forall hash sig_ok c img1 img2 s m s1 s2 n types start el1 el2 s1' s2',
      (forall a, img1 a < 256) -> (forall a, img2 a < 256) ->
      verify hash sig_ok c (stable img1) (fun _ => true) no_state s = (s1, Ok m) ->
      verify hash sig_ok c (stable img2) (fun _ => true) no_state s = (s2, Ok m) ->
      (forall a, c_addr c <= a < c_addr c + h_length (s_header m) -> img1 a = img2 a) ->
      read_element hash c (stable img1) (fun _ => true) TABLES m types start 255 0 (Buffer n) s = (s1', Ok el1) ->
      read_element hash c (stable img2) (fun _ => true) TABLES m types start 255 0 (Buffer n) s = (s2', Ok el2) ->
      el1 = el2).
Proof.
  intros H.
  assert (B: forall x y a, x < 256 -> y < 256 -> out_img x y a < 256).
  { intros x y a X Y. unfold out_img. assert (F: forallb (fun x => x <? 256) (out_D ++ firstn 4 (toy_hash 1 out_D)) = true) by (vm_compute; reflexivity).
    rewrite app_assoc. destruct (nth_in_or_default (N.to_nat a) ((out_D ++ firstn 4 (toy_hash 1 out_D)) ++ [x; y]) 0) as [I0| ->]; [|reflexivity].
    apply in_app_or in I0. destruct I0 as [I0|[<-|[<-|[]]]]; [|auto|auto]. rewrite forallb_forall in F. apply F in I0. lia. }
  assert (X: {| el_index := 1; el_type := 16; el_format := 1; el_total := 2; el_data := [1; 2] |} = {| el_index := 1; el_type := 16; el_format := 1; el_total := 2; el_data := [3; 4] |}).
  { eapply (H toy_hash toy_sig toy_cfg (out_img 1 2) (out_img 3 4) (0%nat, []) _ _ _ 2 [16] 0).
    - intros a. apply B; lia.
    - intros a. apply B; lia.
    - vm_compute; reflexivity.
    - vm_compute; reflexivity.
    - cbn [c_addr toy_cfg s_header h_length]. intros a R. unfold out_img. rewrite !app_assoc.
      rewrite !(app_nth1 (out_D ++ firstn 4 (toy_hash 1 out_D))); [reflexivity| |]; change (length (out_D ++ firstn 4 (toy_hash 1 out_D))) with 115%nat; lia.
    - vm_compute; reflexivity.
    - vm_compute; reflexivity. }
  discriminate X.
Qed.
Print Assumptions C45_element_outside_refuted.

(** * C46: what is read *)

(** Reading an element of a manifest gives the first entry, from the given index on, of one of the requested types, as the
    signed tables of contents say, and data whose hash the table contains, if it has one for the entry; else, the flash
    contains a forged table, with the hash of one of the signed ones.  The flash may have changed in any way since the
    verification. *)
Theorem C46_lookup : forall hash c rd eng fuel m types start parent off w s s' el t ts,
  flash_ok rd -> c_size c < 2 ^ 32 -> hash_len (s_type m) = Some (s_hl m) ->
  linked hash (s_type m) (s_root m) t ts ->
  (forall x, In x (t :: ts) -> exists a o e, toc_ok a (s_type m) (s_hl m) o e x) ->
  s_entries m = N.of_nat (entries_of t ts) ->
  read_element hash c rd eng fuel m types start parent off w s = (s', Ok el) ->
  (exists x, In x (t :: ts) /\ forged hash (s_type m) rd (enc_toc x)) \/
  exists e, first_match types start parent (flat_map tc_entries (t :: ts)) (el_index el) e /\
    el_type el = e_type e /\ el_format el = e_format e /\ el_total el = e_length e /\ (e_parent e = 255 \/ e_parent e = parent) /\
    N.of_nat (length (el_data el)) =
      (match w with NoData => 0 | Buffer n => N.min n (e_length e - off) | Allocated => e_length e - off end) /\
    match hash_of (t :: ts) (N.to_nat (el_index el)) with
    | Some h => el_data el = [] \/
        exists E, read_parts rd E /\ hash (s_type m) E = h /\ N.of_nat (length E) = e_length e /\
          el_data el = window (N.to_nat off) (length (el_data el)) E
    | None => read_at rd (c_addr c + (e_offset e + off) mod 65536) (el_data el)
    end.
Proof.
  intros hash c rd eng fuel m types start parent off w s s' el t ts Hrd Hs HL LK TK EN H.
  assert (HL': s_hl m < 2 ^ 16).
  { unfold hash_len in HL. destruct (s_type m =? 1); [injection HL as <-; lia|]. destruct (s_type m =? 2); [injection HL as <-; lia|]. destruct (s_type m =? 3); [injection HL as <-; lia|discriminate]. }
  apply (read_element_ok c rd Hrd Hs) in H; [|auto]. destruct H as (V & ST & e & eh & F & E1 & E2 & E3 & E4 & E5 & E6).
  destruct (found_linked _ _ _ _ _ _ _ _ _ _ _ _ F t ts LK) as [(x & z & Z1 & Z2)|(I1 & I2 & I3 & I4 & I5 & I6 & I7)]; [|lia|left; exists x; split; [exact Z1|exists z; exact Z2]|right].
  { rewrite Forall_forall. intros x I0. destruct (TK x I0) as (a & o & ex & [K1 K2 K3 K4 K5 K6 K7]). unfold good_table. tauto. }
  rewrite N.sub_0_r in *. exists e. split. { split; [auto|]. split; [auto|]. split; [auto|]. split; [auto|]. intros j x J NJ. apply (I7 j x); [lia|auto]. }
  split; [auto|]. split; [auto|]. split; [auto|]. split; [auto|]. split; [exact E5|]. rewrite I6. exact E6.
Qed.
Print Assumptions C46_lookup.

(** For an element with a hash, this is the data that the manifest was made for, or the flash contains a forgery of it. *)
Theorem C46_genuine : forall hash c rd eng fuel m types start parent off w s s' el t ts E,
  flash_ok rd -> c_size c < 2 ^ 32 -> hash_len (s_type m) = Some (s_hl m) ->
  linked hash (s_type m) (s_root m) t ts ->
  (forall x, In x (t :: ts) -> exists a o e, toc_ok a (s_type m) (s_hl m) o e x) ->
  s_entries m = N.of_nat (entries_of t ts) ->
  read_element hash c rd eng fuel m types start parent off w s = (s', Ok el) ->
  hash_of (t :: ts) (N.to_nat (el_index el)) = Some (hash (s_type m) E) -> N.of_nat (length E) = el_total el ->
  (exists x, In x (E :: map enc_toc (t :: ts)) /\ forged hash (s_type m) rd x) \/
  el_data el = firstn (N.to_nat (match w with NoData => 0 | Buffer n => n | Allocated => el_total el end)) (skipn (N.to_nat off) E).
Proof.
  intros hash c rd eng fuel m types start parent off w s s' el t ts E Hrd Hs HL LK TK EN H HE LE.
  destruct (C46_lookup _ _ _ _ _ _ _ _ _ _ _ _ _ _ _ _ Hrd Hs HL LK TK EN H) as [(x & X1 & X2)|(e & _ & _ & _ & TL & _ & LD & D)].
  { left. exists (enc_toc x). split; [right; now apply in_map|exact X2]. }
  rewrite HE in D. rewrite TL in LE.
  assert (W: forall (l : list N) n, l = [] -> N.of_nat (length l) = N.min n (N.of_nat (length E) - off) -> l = firstn (N.to_nat n) (skipn (N.to_nat off) E)).
  { intros l n -> Q. symmetry. apply length_zero_iff_nil. rewrite firstn_length, skipn_length. cbn [length] in Q. lia. }
  assert (LD': N.of_nat (length (el_data el)) = N.min (match w with NoData => 0 | Buffer n => n | Allocated => el_total el end) (N.of_nat (length E) - off))
    by (rewrite LD, TL; destruct w; lia).
  destruct D as [D|(E' & R & HH & LL & D)]; [right; now apply W|].
  destruct (list_eq_dec N.eq_dec E' E) as [->|NE]; [right|left; exists E; split; [now left|exists E'; auto]].
  rewrite D. unfold window. set (k := match w with NoData => 0 | Buffer n => n | Allocated => el_total el end) in *.
  destruct (N.le_ge_cases k (N.of_nat (length E) - off)) as [Q|Q].
  - replace (length (el_data el)) with (N.to_nat k) by lia. reflexivity.
  - rewrite !firstn_all2; [reflexivity| |]; rewrite skipn_length; lia.
Qed.
Print Assumptions C46_genuine.

(** Two reads of the same element give the same, whatever the flash does in between, as long as the element has a hash. *)
Theorem C46_same : forall hash c m types start parent off w rd1 eng1 fuel1 s1 s1' el1 rd2 eng2 fuel2 s2 s2' el2,
  flash_ok rd1 -> flash_ok rd2 -> c_size c < 2 ^ 32 -> hash_len (s_type m) = Some (s_hl m) ->
  read_element hash c rd1 eng1 fuel1 m types start parent off w s1 = (s1', Ok el1) ->
  read_element hash c rd2 eng2 fuel2 m types start parent off w s2 = (s2', Ok el2) ->
  clash hash (s_type m) rd1 rd2 \/
  (el_index el1 = el_index el2 /\ el_type el1 = el_type el2 /\ el_format el1 = el_format el2 /\ el_total el1 = el_total el2 /\
   (el_data el1 = el_data el2 \/
    exists o, read_at rd1 (c_addr c + o) (el_data el1) /\ read_at rd2 (c_addr c + o) (el_data el2))).
Proof.
  intros hash c m types start parent off w rd1 eng1 fuel1 s1 s1' el1 rd2 eng2 fuel2 s2 s2' el2 Hr1 Hr2 Hs HL H1 H2.
  assert (HL': s_hl m < 2 ^ 16).
  { unfold hash_len in HL. destruct (s_type m =? 1); [injection HL as <-; lia|]. destruct (s_type m =? 2); [injection HL as <-; lia|]. destruct (s_type m =? 3); [injection HL as <-; lia|discriminate]. }
  apply (read_element_ok c rd1 Hr1 Hs) in H1; [|auto]. apply (read_element_ok c rd2 Hr2 Hs) in H2; [|auto].
  destruct H1 as (_ & _ & e & eh & F & E1 & E2 & E3 & E4 & E5 & E6). destruct H2 as (_ & _ & e' & eh' & F' & E1' & E2' & E3' & E4' & E5' & E6').
  destruct (found_det _ _ _ _ _ _ _ _ _ _ _ _ _ F _ _ _ F') as [?|(-> & IX & ->)]; [now left|].
  destruct eh as [h|].
  - assert (LL: length (el_data el1) = length (el_data el2)) by lia.
    destruct E6 as [Z|(E & RE & HE & _ & W)]; [right|destruct E6' as [Z|(E' & RE' & HE' & _ & W')]; [right|]].
    + repeat (split; [congruence|]). left. rewrite Z in *. destruct (el_data el2); [auto|discriminate].
    + repeat (split; [congruence|]). left. rewrite Z in *. destruct (el_data el1); [auto|discriminate].
    + destruct (list_eq_dec N.eq_dec E E') as [->|NE]; [right; repeat (split; [congruence|]); left; rewrite W, W'; congruence|left]. exists E, E'. split; [auto|]. split; [congruence|auto].
  - right. repeat (split; [congruence|]). right. eauto.
Qed.
Print Assumptions C46_same.

(** Every element of a manifest that is as it should be can be read: its data is what the flash holds at the offset its
    entry gives. *)
Theorem C46_finds : forall hash c img eng fuel m types start parent off w s D h t ts i e,
  (forall k, eng k = true) -> c_size c < 2 ^ 32 ->
  layout (s_ext m) D h (s_type m) (s_hl m) t (s_root m) (s_platform m) ts ->
  img_read img (c_addr c) (length D) = D -> c_addr c + N.of_nat (length D) <= c_size c ->
  linked hash (s_type m) (s_root m) t ts ->
  s_valid m = true -> s_entries m = N.of_nat (entries_of t ts) -> (length ts < fuel)%nat ->
  first_match types start parent (flat_map tc_entries (t :: ts)) i e -> (e_parent e = 255 \/ e_parent e = parent) ->
  e_offset e + e_length e <= 65536 -> c_addr c + e_offset e + e_length e <= c_size c ->
  (forall h, hash_of (t :: ts) (N.to_nat i) = Some h -> hash (s_type m) (img_read img (c_addr c + e_offset e) (N.to_nat (e_length e))) = h) ->
  exists s', read_element hash c (stable img) eng fuel m types start parent off w s =
    (s', Ok (Element i (e_type e) (e_format e) (e_length e)
      (img_read img (c_addr c + e_offset e + off)
        (N.to_nat (match w with NoData => 0 | Buffer n => N.min n (e_length e - off) | Allocated => e_length e - off end))))).
Proof.
  intros hash c img eng fuel m types start parent off w s D h t ts i e He Hs L HD SD LK VA EN FU FM PR OF SZ HH.
  destruct (runs_element c img Hs eng He hash fuel m types start parent off w t ts (s_ext m) D h e i (snd s) L HD SD LK VA eq_refl EN FU FM PR OF SZ HH) as (acc' & R).
  destruct (R (fst s)) as (k' & E). rewrite <- surjective_pairing in E. eauto.
Qed.
Print Assumptions C46_finds.

Example C46_lookup_ex : exists s',
  read_element toy_hash toy_cfg (stable toy_img) (fun _ => true) TABLES toy_m [16] 0 255 2 (Buffer 3) (0%nat, []) =
    (s', Ok (Element 1 16 1 6 [30; 40; 50])) /\
  flash_ok (stable toy_img) /\ hash_len (s_type toy_m) = Some (s_hl toy_m) /\
  linked toy_hash (s_type toy_m) (s_root toy_m) toy_t [] /\
  (forall x, In x [toy_t] -> exists a o e, toc_ok a (s_type toy_m) (s_hl toy_m) o e x) /\
  s_entries toy_m = N.of_nat (entries_of toy_t []) /\
  hash_of [toy_t] (N.to_nat 1) = Some (toy_hash (s_type toy_m) toy_data) /\ N.of_nat (length toy_data) = 6.
Proof.
  eexists. split; [vm_compute; reflexivity|]. split; [apply stable_ok, toy_img_byte|]. split; [reflexivity|]. split; [apply toy_linked|]. split; [|repeat split].
  intros x [<-|[]]. exists false, 12, 32. apply toy_toc_ok.
Qed.
Example C46_changed_ex : exists s',
  read_element toy_hash toy_cfg (stable (fun a => if a =? 107 then 31 else toy_img a)) (fun _ => true) TABLES toy_m [16] 0 255 2 (Buffer 3) (0%nat, []) =
    (s', Err MElementInvalid).
Proof. eexists. vm_compute. reflexivity. Qed.
Example C46_finds_ex :
  layout (s_ext toy_m) toy_D toy_h (s_type toy_m) (s_hl toy_m) toy_t (s_root toy_m) (s_platform toy_m) [] /\
  first_match [16] 0 255 (flat_map tc_entries [toy_t]) 1 toy_entry /\
  (forall h, hash_of [toy_t] (N.to_nat 1) = Some h -> toy_hash (s_type toy_m) (img_read toy_img (c_addr toy_cfg + e_offset toy_entry) (N.to_nat (e_length toy_entry))) = h).
Proof.
  split; [apply toy_layout|]. split.
  - split; [reflexivity|]. split; [lia|]. split; [split; [discriminate|now left]|]. split; [now left|].
    intros j x R N. assert (j = 0)%nat as -> by lia. injection N as <-. split; [intros (_ & [Q|[]]); discriminate Q|]. intros _ Q. now elim Q.
  - intros h E. injection E as <-. vm_compute. reflexivity.
Qed.

(** Without a hash for the entry, an offset into the element that reaches over 64 KB gives other data. *)
Definition wrap_t : toc := Toc [toy_platform; TEntry 16 255 1 255 65530 20] [toy_hash 1 toy_data] 0 0.
Definition wrap_D : list N :=
  enc_header toy_h 0 ++ enc_toc wrap_t ++ toy_hash 1 (enc_toc wrap_t) ++ [] ++ ([5; 0; 0; 0] ++ toy_id) ++ toy_data.
Definition wrap_img : image := fun a => nth (N.to_nat a) (wrap_D ++ firstn 4 (toy_hash 1 wrap_D)) 77.
Definition wrap_cfg : mcfg := MCfg 0 65535 20557 20558 8 16 131072.
Theorem C46_offset_wraps_refuted :
  ~ (forall hash sig_ok c img s m s1 types start off n el s',
      verify hash sig_ok c (stable img) (fun _ => true) no_state s = (s1, Ok m) ->
      read_element hash c (stable img) (fun _ => true) TABLES m types start 255 off (Buffer n) s = (s', Ok el) ->
      exists e, el_total el = e_length e /\ el_type el = e_type e /\
        enc_entry e = img_read img (c_addr c + 16 + 8 * el_index el) 8 /\
        el_data el = img_read img (c_addr c + e_offset e + off) (length (el_data el))).
Proof.
  intros H.
  assert (V: exists s1 m s', verify toy_hash toy_sig wrap_cfg (stable wrap_img) (fun _ => true) no_state (0%nat, []) = (s1, Ok m) /\
    read_element toy_hash wrap_cfg (stable wrap_img) (fun _ => true) TABLES m [16] 0 255 6 (Buffer 4) (0%nat, []) = (s', Ok (Element 1 16 1 20 [115; 0; 77; 80])))
    by (eexists; eexists; eexists; split; vm_compute; reflexivity).
  destruct V as (s1 & m & s' & V & R). destruct (H _ _ _ _ _ _ _ _ _ _ _ _ _ V R) as (e & E1 & E2 & E3 & E4). 
  cbn [c_addr wrap_cfg el_index el_data length el_total el_type] in *.
  change (img_read wrap_img (0 + 16 + 8 * 1) 8) with [16; 255; 1; 255; 250; 255; 20; 0] in E3.
  assert (O: le16 (e_offset e) = [250; 255]) by (injection E3 as _ _ _ _ A B C D; unfold le16; now rewrite A, B).
  assert (EO: (e_offset e) mod 65536 = 65530).
  { unfold le16 in O. injection O as O1 O2. clear - O1 O2. pose proof (N.div_mod (e_offset e) 256 ltac:(lia)). pose proof (N.div_mod (e_offset e / 256) 256 ltac:(lia)). lia. }
  clear - E4 EO. pose proof (N.div_mod (e_offset e) 65536 ltac:(lia)) as D. rewrite EO in D.
  apply (f_equal (fun l => nth 0 l 0)) in E4. rewrite nth_img_read in E4 by lia. cbn [nth] in E4. unfold wrap_img in E4. rewrite nth_overflow in E4; [discriminate|].
  change (length (wrap_D ++ firstn 4 (toy_hash 1 wrap_D))) with 115%nat. lia.
Qed.
Print Assumptions C46_offset_wraps_refuted.

(** An entry without a hash is not protected after the verification: what is read is what the flash then holds. *)
Theorem C46_unprotected_refuted :
  ~ (forall hash sig_ok c img img2 s m s1 types start off n el el2 s' s'',
      verify hash sig_ok c (stable img) (fun _ => true) no_state s = (s1, Ok m) ->
      read_element hash c (stable img) (fun _ => true) TABLES m types start 255 off (Buffer n) s = (s', Ok el) ->
      read_element hash c (stable img2) (fun _ => true) TABLES m types start 255 off (Buffer n) s = (s'', Ok el2) ->
      el_data el = el_data el2).
Proof.
  intros H.
  assert (X: [65; 66] = [65; 99]).
  { assert (V: exists s1 m s' s'', verify toy_hash toy_sig toy_cfg (stable toy_img) (fun _ => true) no_state (0%nat, []) = (s1, Ok m) /\
      read_element toy_hash toy_cfg (stable toy_img) (fun _ => true) TABLES m [0] 0 255 4 (Buffer 2) (0%nat, []) = (s', Ok (Element 0 0 1 9 [65; 66])) /\
      read_element toy_hash toy_cfg (stable (fun a => if a =? 101 then 99 else toy_img a)) (fun _ => true) TABLES m [0] 0 255 4 (Buffer 2) (0%nat, []) = (s'', Ok (Element 0 0 1 9 [65; 99])))
      by (eexists; eexists; eexists; eexists; split; [|split]; vm_compute; reflexivity).
    destruct V as (s1 & m & s' & s'' & V & R1 & R2). exact (H _ _ _ _ _ _ _ _ _ _ _ _ _ _ _ _ V R1 R2). }
  discriminate X.
Qed.
Print Assumptions C46_unprotected_refuted.
