(** * The format of an unseal request

    Written from the protocol: header, types, parameters, then three
    length-prefixed fields, of which the HMAC has 32 bytes, and five PMR values
    of 64 bytes. *)
From Coq Require Import List NArith.
From Verif Require Import Base Unseal_Model.
Import ListNotations.

Record fields : Type := mkFields {
  f_header : list N;
  f_types : N;
  f_params : N;
  f_seed : list N;
  f_ciphertext : list N;
  f_hmac : list N;
  f_pmrs : list N
}.

Definition prefixed (l : list N) : list N := le16 (N.of_nat (length l)) ++ l.

Definition encode (f : fields) : list N :=
  f_header f ++ [f_types f; f_params f] ++ prefixed (f_seed f) ++ prefixed (f_ciphertext f) ++
  prefixed (f_hmac f) ++ f_pmrs f.

(** The low two bits of the types are the seed type, RSA or ECDH; the next
    three the HMAC type, which has to be SHA-256.  An RSA padding is one of
    three. *)
Definition wellformed (f : fields) : Prop :=
  length (f_header f) = 5 /\
  N.land (N.shiftr (f_types f) 2) 7 = 0%N /\
  (N.land (f_types f) 3 = 0%N /\ (N.land (f_params f) 7 <= 2)%N \/ N.land (f_types f) 3 = 1%N) /\
  (0 < N.of_nat (length (f_seed f)) < 65536)%N /\
  (0 < N.of_nat (length (f_ciphertext f)) < 65536)%N /\
  length (f_hmac f) = 32 /\ length (f_pmrs f) = 5 * 64.

Definition bytes (l : list N) : Prop := Forall (fun x => (x < 256)%N) l.

(** What the unsealing has to be run with. *)
Definition request_of (f : fields) : arguments :=
  mkArgs (f_seed f) (N.land (f_types f) 3)
    (if (N.land (f_types f) 3 =? 1)%N then N.land (f_params f) 1 else N.land (f_params f) 7)
    (f_hmac f) (f_ciphertext f) (f_pmrs f).
