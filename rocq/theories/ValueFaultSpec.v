(** Programs over json::Value objects when memory may run out: an operation takes effect, or it reports that there is
    no memory and changes nothing. *)
From Verif Require Import Base ValueSpec.
From Coq Require Import List Bool Arith.
Import ListNotations.

(** what the program sees of an operation: [NoMemory] is std::bad_alloc *)
Inductive event : Type := Done | Thrown (x : exn) | NoMemory.

(** a value that takes memory to copy *)
Definition costs (t : tree) : bool := match t with TUndef | TBool _ => false | _ => true end.
(** the operation may ask for memory *)
Definition asks (e : env) (o : op) : bool :=
  let found p k := match eget e p with Found t => k t | _ => false end in
  match o with
  | New _ c => costs (tree_of c)
  | Copy _ p => found p costs
  | Assign _ q => found q costs
  | SetStr _ _ | Push _ _ | Resize _ _ | Put _ _ _ => true
  | Pop _ p => found p (fun t => match t with TArr l => costs (last l TUndef) | _ => false end)
  | Erase p k => found p (fun t => match t with TObj ms => match assoc k ms with Some _ => true | None => false end | _ => false end)
  | Move _ _ | Destroy _ | SetInt _ _ | Clear _ | Delegate _ _ => false
  end.

(** A program looks at what it has seen so far and decides what to do next.  [script l]: the operations of [l] whatever
    happens; [retry l]: each operation of [l] until there was memory for it. *)
Definition program : Type := list event -> option op.
Definition script (l : list op) : program := fun evs => nth_error l (length evs).
Definition granted (ev : event) : bool := match ev with NoMemory => false | _ => true end.
Definition retry (l : list op) : program := fun evs => nth_error l (length (filter granted evs)).

(** what the program may have seen, and the variables then *)
Inductive reach (next : program) (n : nat) : env -> list event -> Prop :=
| reach_start : reach next n (env0 n) []
| reach_done e evs o e' : reach next n e evs -> next evs = Some o -> astep e o = Some (e', None) -> reach next n e' (evs ++ [Done])
| reach_throw e evs o e' x : reach next n e evs -> next evs = Some o -> astep e o = Some (e', Some x) -> reach next n e' (evs ++ [Thrown x])
| reach_fail e evs o r : reach next n e evs -> next evs = Some o -> astep e o = Some r -> asks e o = true -> reach next n e (evs ++ [NoMemory]).

(** ** Operations that survive a lack of memory *)
(** no object, and no array with anything in it *)
Definition flat (t : tree) : bool := match t with TObj _ | TArr (_ :: _) => false | _ => true end.
(** overwriting [t] by a copy of [u] *)
Definition overwrites (t u : tree) : bool := negb (costs u) || (kind_eqb (kind_of t) (kind_of u) && flat u).
(** making and copying flat values; overwriting a value by a flat one of the same type; adding and taking undefined
    values and booleans; everything that makes no copy, except making an object and adding or erasing a member *)
Definition tolerant (e : env) (o : op) : bool :=
  let found p k := match eget e p with Found t => k t | _ => true end in
  match o with
  | New _ c => match c with CObj => false | _ => true end
  | Copy _ p => found p flat
  | Assign p q => found q (fun u => found p (fun t => overwrites t u))
  | Push p q => found q (fun u => found p (fun _ => negb (costs u)))
  | Pop _ p => found p (fun t => match t with TArr l => negb (costs (last l TUndef)) | _ => true end)
  | Put p k q =>
      found q (fun u => found p (fun t =>
        match t with TObj ms => match assoc k ms with Some c => overwrites c u | None => false end | _ => true end))
  | Erase p k => found p (fun t => match t with TObj ms => match assoc k ms with Some _ => false | None => true end | _ => true end)
  | Move _ _ | Destroy _ | SetInt _ _ | SetStr _ _ | Resize _ _ | Clear _ | Delegate _ _ => true
  end.
(** whatever fails, every operation of the program has a meaning and is tolerant *)
Definition careful (next : program) (n : nat) : Prop :=
  forall e evs o, reach next n e evs -> next evs = Some o -> tolerant e o = true /\ astep e o <> None.
(** every operation of [l] has a meaning and is tolerant when its turn comes *)
Fixpoint tolerant_all (e : env) (l : list op) : bool :=
  match l with
  | [] => true
  | o :: l' => tolerant e o && match astep e o with Some (e', _) => tolerant_all e' l' | None => false end
  end.

(** every variable alive in [e] shows its content *)
Definition shows (e : env) (content : nat -> outcome tree) : Prop :=
  forall x, is_alive (e_alive e) x = true -> exists t, nth_error (e_vars e) x = Some t /\ content x = Ret t.
(** the events of a program that always has memory *)
Definition events (log : list (option exn)) : list event := map (fun x => match x with None => Done | Some y => Thrown y end) log.
(** every request is granted but number [n] *)
Definition refuse (n : nat) : nat -> bool := fun c => negb (c =? n)%nat.
