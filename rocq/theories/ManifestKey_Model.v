(** Model of core/manifest/manifest_verification.c: the keys that manifests are verified with, and their revocation.

    Keys are the bytes of struct manifest_verification_key_header with the public key and the signature of the root key behind it, for
    public keys of [plen] and signatures of [slen] bytes.  Signature verification is arbitrary: [endorsed] for keys, [sig_ok] for manifests,
    [key_ok] for keys the verification works with; any call may fail.  The keystore has a key or not (KEYSTORE_NO_KEY and KEYSTORE_BAD_KEY
    are treated alike, line 323).  The device is restarted with any firmware, that is, any default key.  Simplifications: the signature of
    the default key is at its end (manifest_verification.h:52-62); pointers are not null; the memory of the stored key is not modelled. *)
From Coq Require Import List NArith Bool Arith.
From Verif Require Import Base.
Import ListNotations.

(** What a call of save_key does: it works, or fails with the old key, no key or the new key in the keystore. *)
Inductive save := Written | Kept | Lost | Stored.
Definition saved (s : save) : bool := match s with Written => true | _ => false end.

(** manifest_verification.h:88-93, struct manifest_verification_state, with the default key of the firmware *)
Record ram := Ram { dflt : list N; stored : option (list N); default_valid : bool; save_failed : bool }.
(** The keystore, and the state while the device runs *)
Record state := St { store : option (list N); up : option ram }.

(** Which calls work. *)
Record bworks := BWorks { b_default : bool; b_load : bool; b_stored : bool; b_save : save; b_lock : bool }.
Record vworks := VWorks { v_set1 : bool; v_verify1 : bool; v_set2 : bool; v_verify2 : bool }.
Record aworks := AWorks { a_hash : bool; a_sig : bool; a_set : bool; a_verify : bool; a_save : save }.

Inductive op :=
| Boot (d : list N) (w : bworks)
| Verify (digest sig : list N) (w : vworks)
| Activate (digest sig : list N) (w : aworks)    (* a manifest with this digest and signature is activated *)
| UpdateStart (w : save).                        (* a firmware update is about to start *)

Inductive result := Booted | BootFailed | Accepted | BadSignature | VerifyError | Silent | Allowed | Blocked | NotRunning.

Section Keys.
Variables plen slen : nat.
Variables endorsed : list N -> list N -> bool.
Variable key_ok : list N -> bool.
Variable sig_ok : list N -> list N -> list N -> bool.

(** manifest_verification.h:25-28 and lines 330-336 *)
Definition key_id (k : list N) : N := le_value (firstn 4 k).
Definition pub (k : list N) : list N := window 4 plen k.
Definition body (k : list N) : list N := firstn (length k - slen) k.
Definition signature (k : list N) : list N := window (4 + plen) slen k.

Definition save_key (s : option (list N)) (k : list N) (w : save) : option (list N) :=
  match w with Written | Stored => Some k | Kept => s | Lost => None end.

(** manifest_verification.c:216-232, manifest_verification_verify_key *)
Inductive checked := Good | Bad | Failed.
Definition verify_key (k : list N) (works : bool) : checked :=
  if negb works then Failed else if endorsed (body k) (signature k) && key_ok (pub k) then Good else Bad.

(** manifest_verification.c:298-387, manifest_verification_init_state *)
Definition boot (s : state) (d : list N) (w : bworks) : state * result :=
  let fail (st : option (list N)) := (St st None, BootFailed) in
  let finish (st : option (list N)) (r : ram) := if b_lock w then (St st (Some r), Booted) else fail st in
  let none (tt : unit) :=
    let st := save_key (store s) d (b_save w) in
    if saved (b_save w) then finish st (Ram d None true false) else fail st in
  match verify_key d (b_default w) with
  | Good =>
    if negb (b_load w) then fail (store s)
    else
      match store s with
      | None => none tt
      | Some k =>
        match (if length k =? length d then verify_key k (b_stored w) else Bad) with
        | Good => finish (store s) (Ram d (Some k) (negb (key_id d <=? key_id k)%N) false)
        | Bad => none tt
        | Failed => fail (store s)
        end
      end
  | _ => fail (store s)
  end.

(** manifest_verification.c:14-60, manifest_verification_verify_signature.  Without a stored key the default key is valid, so that the
    status at line 59 is set. *)
Definition with_default (r : ram) (digest sig : list N) (w : vworks) : result :=
  if negb (v_set2 w && v_verify2 w) then VerifyError else if sig_ok (pub (dflt r)) digest sig then Accepted else BadSignature.
Definition verify (r : ram) (digest sig : list N) (w : vworks) : result :=
  match stored r with
  | Some k =>
    if negb (v_set1 w && v_verify1 w) then VerifyError
    else if sig_ok (pub k) digest sig then Accepted
    else if default_valid r then with_default r digest sig w else BadSignature
  | None => if default_valid r then with_default r digest sig w else VerifyError
  end.

(** manifest_verification.c:105-177, manifest_verification_on_manifest_activated *)
Definition activate (st : option (list N)) (r : ram) (digest sig : list N) (w : aworks) : option (list N) * ram :=
  match stored r, default_valid r with
  | Some k, true =>
    if negb (a_hash w && a_sig w && a_set w && a_verify w) then (st, r)
    else if sig_ok (pub (dflt r)) digest sig then
      (save_key st (dflt r) (a_save w), Ram (dflt r) None (default_valid r) (negb (saved (a_save w))))
    else (st, r)
  | _, _ =>
    if save_failed r then
      (save_key st (dflt r) (a_save w), Ram (dflt r) (stored r) (default_valid r) (negb (saved (a_save w))))
    else (st, r)
  end.

(** manifest_verification.c:179-204, manifest_verification_on_update_start *)
Definition update_start (st : option (list N)) (r : ram) (w : save) : option (list N) * ram * result :=
  if save_failed r then
    if saved w then (save_key st (dflt r) w, Ram (dflt r) (stored r) (default_valid r) false, Allowed)
    else (save_key st (dflt r) w, r, Blocked)
  else (st, r, Allowed).

Definition step (s : state) (o : op) : state * result :=
  match o, up s with
  | Boot d w, _ => boot s d w
  | _, None => (s, NotRunning)
  | Verify digest sig w, Some r => (s, verify r digest sig w)
  | Activate digest sig w, Some r => let '(st, r) := activate (store s) r digest sig w in (St st (Some r), Silent)
  | UpdateStart w, Some r => let '(st, r, x) := update_start (store s) r w in (St st (Some r), x)
  end.

Fixpoint run (s : state) (l : list op) : state * list result :=
  match l with
  | [] => (s, [])
  | o :: l => let '(s, r) := step s o in let '(s, rs) := run s l in (s, r :: rs)
  end.
End Keys.
