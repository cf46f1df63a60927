(** What a user of the heap sees: the blocks they hold, and the calls they may make.

    A client holds a list of live blocks, each an address and the size that was asked for.  They may
    allocate, reallocate or free blocks they hold, and write inside their own blocks. *)
From Coq Require Import List NArith Bool Arith.
From Verif Require Import Base Heap_Model.
Import ListNotations.
Local Open Scope N_scope.

Definition block := (N * N)%type.

(** Two ranges [a, a+n) and [b, b+k) have no byte in common. *)
Definition apart (a n b k : N) : Prop := a + n <= b \/ b + k <= a.

Section Client.
  Variable W HL base len : N.

  Inductive call :=
  | Malloc (n : N) | Calloc (k n : N) | Realloc (a n : N) | Free (a : N)
  | Write.  (* the client writes anything in its own blocks *)

  Record client := Client { hp : heap; live : list block }.

  (** The request is far enough from the integer limit for rounding and the header (see C24). *)
  Definition in_range (n : N) : Prop := n + 3 + HL < W.

  Definition drop (a : N) (l : list block) : list block := filter (fun b => negb (fst b =? a)) l.
  Definition gain (a n : N) (l : list block) : list block := if a =? 0 then l else (a, n) :: l.

  (** [touches l x]: a control block at [x] shares bytes with the contents of a live block. *)
  Definition touches (l : list block) (x : N) : Prop :=
    exists a n, In (a, n) l /\ 0 < n /\ ~ apart a n x HL.

  (** What a write to user memory can do to the memory in which control blocks are read: anything, in
      control blocks that share bytes with live contents, and nothing elsewhere. *)
  Definition user_write (l : list block) (h h' : heap) : Prop :=
    fl h' = fl h /\ al h' = al h /\
    (forall x, ~ touches l x ->
      mg (hm h') x = mg (hm h) x /\ sz (hm h') x = sz (hm h) x /\
      nx (hm h') x = nx (hm h) x /\ pv (hm h') x = pv (hm h) x) /\
    (forall y, ~ (exists a n, In (a, n) l /\ a <= y < a + n) -> bytes h' y = bytes h y).

  Definition fuel_of : nat := S (N.to_nat len).

  Inductive step : client -> call -> client -> Prop :=
  | SMalloc h l n h' a :
      in_range n -> allocate W HL fuel_of h n = Some (h', a) ->
      step (Client h l) (Malloc n) (Client h' (gain a n l))
  | SCalloc h l k n h' a :
      in_range (k * n) -> allocate_zeroize W HL fuel_of h k n = Some (h', a) ->
      step (Client h l) (Calloc k n) (Client h' (gain a (k * n) l))
  | SRealloc h l n h' a o k :
      in_range n -> In (o, k) l -> reallocate W HL fuel_of h o n = Some (h', a) ->
      step (Client h l) (Realloc o n) (Client h' (if a =? 0 then l else (a, n) :: drop o l))
  | SFree h l a k h' :
      In (a, k) l -> free HL fuel_of h a = Some h' ->
      step (Client h l) (Free a) (Client h' (drop a l))
  | SWrite h l h' :
      user_write l h h' -> step (Client h l) Write (Client h' l).

  (** All that a client of a fresh heap can reach. *)
  Inductive reached (h0 : heap) : client -> Prop :=
  | RStart h : heap_init HL h0 base len = Some h -> reached h0 (Client h [])
  | RStep s c s' : reached h0 s -> step s c s' -> reached h0 s'.
End Client.

(** A list as the code stores it: [chain m p l] says that following next pointers from [p] visits
    exactly the control blocks [l] and then NULL. *)
Fixpoint chain (m : mem) (p : N) (l : list N) : Prop :=
  match l with
  | [] => p = 0
  | a :: t => p = a /\ a <> 0 /\ chain m (nx m a) t
  end.

Definition total (f : N -> N) (l : list N) : N := fold_right (fun a s => f a + s) 0 l.
