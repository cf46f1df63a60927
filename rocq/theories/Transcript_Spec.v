(** What the transcript properties talk about: the transcripts as SPDM defines them, from the calls and their results alone. *)
From Coq Require Import List NArith Bool Arith.
From Verif Require Import Base Transcript_Model.
Import ListNotations.

(** A transcript that was not begun, one with its algorithm and bytes, or one for which an update failed. *)
Inductive transcript := Empty | Good (algo : N) (bytes : list N) | Spoiled.

Record view := View { w_algo : option N; w_vca : list N; w_ver : N; w_tr : cname -> transcript }.
Definition view0 : view := View None [] 0 (fun _ => Empty).

Definition same (a b : cname) : bool :=
  match a, b with
  | CM1M2, CM1M2 | CL1L2, CL1L2 => true
  | CTh i, CTh j | CSess i, CSess j => i =? j
  | _, _ => false
  end.
Definition set_tr (w : view) (c : cname) (t : transcript) : view :=
  View (w_algo w) (w_vca w) (w_ver w) (fun d => if same c d then t else w_tr w d).

(** The transcript a call is about; TH is one of a session, and M1/M2 is not *)
Definition target (k : kind) (session : bool) (i : nat) : option cname :=
  match k with
  | KM1M2 => Some CM1M2
  | KL1L2 => Some (if session then CSess i else CL1L2)
  | KTh => Some (CTh i)
  | _ => None
  end.
Definition mismatched (k : kind) (session : bool) : bool := match k with KM1M2 => session | KTh => negb session | _ => false end.

(** SPDM: M1/M2 and TH begin with the messages of version, capabilities and algorithms; L1/L2 do since version 1.2. *)
Definition with_vca (c : cname) (ver : N) : bool := match c with CM1M2 | CTh _ => true | _ => (0x11 <? ver)%N end.

Definition append (w : view) (c : cname) (msg : list N) : transcript :=
  match w_tr w c with
  | Empty => match w_algo w with Some a => Good a ((if with_vca c (w_ver w) then w_vca w else []) ++ msg) | None => Spoiled end
  | Good a b => Good a (b ++ msg)
  | Spoiled => Spoiled
  end.

(** What a call does to the transcripts, for [n] sessions *)
Definition observe (n : nat) (w : view) (e : op * result) : view :=
  match e with
  | (SetAlgo a, ROk) => View a (w_vca w) (w_ver w) (w_tr w)
  | (SetVersion v, _) => View (w_algo w) (w_vca w) v (w_tr w)
  | (Update KVca msg _ _ _, ROk) => View (w_algo w) (w_vca w ++ msg) (w_ver w) (w_tr w)
  | (Update k msg session i _, r) =>
    match target k session i, msg, r with
    | None, _, _ | _, [], _ => w
    | Some c, _, ROk => set_tr w c (append w c msg)
    | Some c, _, _ => set_tr w c Spoiled
    end
  | (GetHash k true session i _, RHash _) => match target k session i with Some c => set_tr w c Empty | None => w end
  | (ResetContext k session i, _) =>
    if mismatched k session || (session && (n <=? i)) then w
    else match k, target k session i with
         | KVca, _ => View (w_algo w) [] (w_ver w) (w_tr w)
         | _, Some c => set_tr w c Empty
         | _, None => w
         end
  | (ResetSession i, _) => if n <=? i then w else set_tr (set_tr w (CSess i) Empty) (CTh i) Empty
  | (ResetAll, _) => View None [] (w_ver w) (fun _ => Empty)
  | _ => w
  end.
Definition views (n : nat) (w : view) (es : list (op * result)) : view := fold_left (observe n) es w.

(** Messages for sessions are for sessions that there are; TH messages are for sessions. *)
Definition valid (n : nat) (o : op) : Prop :=
  match o with
  | Update KTh _ session i _ => session = true /\ i < n
  | Update KL1L2 _ true i _ => i < n
  | _ => True
  end.
Definition sessions (MAXS engines : nat) : nat := Nat.min ((engines - 2) / 2) MAXS.

(** The messages given for a transcript *)
Fixpoint messages (c : cname) (es : list (op * result)) : list N :=
  match es with
  | [] => []
  | (Update k msg session i _, _) :: es => (if match target k session i with Some d => same d c | None => false end then msg else []) ++ messages c es
  | _ :: es => messages c es
  end.

(** Calls that leave a transcript, its algorithm, the version and the VCA as they are, or successfully add a message to the transcript; they
    may do anything to the other transcripts. *)
Definition quiet (n : nat) (c : cname) (e : op * result) : Prop :=
  match e with
  | (SetAlgo _, r) => r <> ROk
  | (SetVersion _, _) | (ResetAll, _) => False
  | (Update KVca _ _ _ _, r) => r <> ROk
  | (Update k msg session i _, r) => target k session i = Some c -> r = ROk
  | (GetHash k finish session i _, RHash _) => target k session i = Some c -> finish = false
  | (ResetContext k session i, _) => k <> KVca /\ target k session i <> Some c
  | (ResetSession i, _) => c <> CSess i /\ c <> CTh i
  | _ => True
  end.
