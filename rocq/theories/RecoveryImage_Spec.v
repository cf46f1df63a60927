(** What a recovery image is: header, sections and signature, written without the code. *)
From Coq Require Import List NArith.
From Verif Require Import Base Flash_Base.
Import ListNotations.
Local Open Scope N_scope.

(** A section: where its data goes in the flash of the host, and the data. *)
Record section := Section_ { s_addr : N; s_data : list N }.

Definition len (l : list N) : N := N.of_nat (length l).

(** The header of a section that is [n] bytes long.  Headers of another format than 0 can have more data at the end. *)
Definition section_header (format a n : N) (more : list N) : list N :=
  le16 (16 + len more) ++ le16 format ++ le32 0x4b172f31 ++ le32 a ++ le32 n ++ more.

(** The bytes of a list of sections. *)
Inductive encodes : list N -> list section -> Prop :=
| enc_nil : encodes [] []
| enc_cons : forall format a more data rest l,
    (format = 0 -> more = []) -> format < 65536 -> len more <= 1008 -> a < 2 ^ 32 -> len data < 2 ^ 32 ->
    encodes rest l ->
    encodes (section_header format a (len data) more ++ data ++ rest) (Section_ a data :: l).

(** Every section ends before the next one starts. *)
Fixpoint ascending_from (low : N) (l : list section) : Prop :=
  match l with
  | [] => True
  | s :: r => low <= s_addr s /\ ascending_from (s_addr s + len (s_data s)) r
  end.
Definition ascending (l : list section) : Prop := ascending_from 0 l.

(** All sections are inside the first [n] bytes. *)
Definition within (n : N) (l : list section) : Prop := Forall (fun s => s_addr s + len (s_data s) <= n) l.

(** A flash that had contents [t], with the sections put into it. *)
Definition holds (t' t : image) (l : list section) : Prop :=
  (forall s, In s l -> img_read t' (s_addr s) (length (s_data s)) = s_data s) /\
  (forall x, (forall s, In s l -> ~ (s_addr s <= x < s_addr s + len (s_data s))) -> t' x = t x).

(** The characters of a string. *)
Definition text (l : list N) : Prop := Forall (fun b => b <> 0 /\ b < 256) l.

(** The header of an image of [total] bytes that ends with a signature of [sig] bytes. *)
Definition image_header (format : N) (version : list N) (total sig id_len : N) (rest : list N) : list N :=
  le16 (49 + len rest) ++ le16 format ++ le32 0x8a147c29 ++
  version ++ le32 total ++ le32 sig ++ [id_len] ++ rest.

(** In format 0 the version is a string that is not empty, and the platform identifier is all that follows. *)
Definition good_header (format : N) (version : list N) (id_len : N) (rest : list N) : Prop :=
  length version = 32%nat /\ bytes_ok version /\ bytes_ok rest /\ format < 65536 /\ id_len < 256 /\ len rest <= 975 /\
  (format = 0 ->
     (exists name pad, version = name ++ 0 :: pad /\ text name /\ name <> []) /\
     (exists platform, rest = platform ++ [0] /\ text platform) /\ id_len = len rest).

(** The identifier in the header is [id]. *)
Definition platform_is (rest id : list N) : Prop := exists more, rest = id ++ 0 :: more.

(** In the flash, [a] is the address of a section header that gives [n] as the length of the section. *)
Definition section_header_at (m : image) (a n : N) : Prop :=
  exists hl format host, img_read m a 16 = le16 hl ++ le16 format ++ le32 0x4b172f31 ++ le32 host ++ le32 n /\ n < 2 ^ 32.

(** What is signed, and the whole image. *)
Definition signed_part (format : N) (version : list N) (id_len : N) (rest body sig : list N) : list N :=
  image_header format version (49 + len rest + len body + len sig) (len sig) id_len rest ++ body.
Definition whole_image (format : N) (version : list N) (id_len : N) (rest body sig : list N) : list N :=
  signed_part format version id_len rest body sig ++ sig.

(** The flash holds these bytes at this address. *)
Definition stored (m : image) (a : N) (l : list N) : Prop := img_read m a (length l) = l.
