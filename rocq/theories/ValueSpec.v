(** Programs over json::Value objects and their meaning if every value is independent of every other, without
    reference to memory. *)
From Verif Require Import Base.
From Coq Require Import List NArith ZArith Bool Arith.
Import ListNotations.

(** the content of a value *)
Inductive tree : Type :=
| TUndef
| TBool (b : bool)
| TInt (z : Z)
| TStr (s : bytes)
| TArr (l : list tree)
| TObj (ms : list (bytes * tree)).

Inductive kind : Set := KUndef | KBool | KInt | KStr | KArr | KObj.
Definition kind_eqb (a b : kind) : bool :=
  match a, b with
  | KUndef, KUndef | KBool, KBool | KInt, KInt | KStr, KStr | KArr, KArr | KObj, KObj => true
  | _, _ => false
  end.
Definition kind_of (t : tree) : kind :=
  match t with TUndef => KUndef | TBool _ => KBool | TInt _ => KInt | TStr _ => KStr | TArr _ => KArr | TObj _ => KObj end.

(** [x.asArray().at(n)], [x.asObject().at(k)] *)
Inductive step : Type := At (n : nat) | Member (k : bytes).
Definition step_eqb (a b : step) : bool :=
  match a, b with
  | At m, At n => Nat.eqb m n
  | Member j, Member k => bytes_eqb j k
  | _, _ => false
  end.
(** a variable and a way into its content *)
Definition place : Type := (nat * list step)%type.

(** expressions that make a value *)
Inductive ctor : Type := CUndef | CBool (b : bool) | CInt (z : Z) | CStr (s : bytes) | CArr | CObj.
Definition tree_of (c : ctor) : tree :=
  match c with
  | CUndef => TUndef | CBool b => TBool b | CInt z => TInt z | CStr s => TStr s | CArr => TArr [] | CObj => TObj []
  end.

Inductive op : Type :=
| New (x : nat) (c : ctor)                 (* Value x(...) *)
| Copy (x : nat) (p : place)               (* Value x(p) *)
| Move (x : nat) (p : place)               (* Value x(std::move(p)) *)
| Assign (p q : place)                     (* p = q *)
| Destroy (x : nat)                        (* end of the scope of x *)
| SetInt (p : place) (z : Z)               (* p.asInteger() = z *)
| SetStr (p : place) (s : bytes)           (* p.asString() = s *)
| Push (p q : place)                       (* p.asArray().push_back(q) *)
| Pop (x : nat) (p : place)                (* Value x(p.asArray().pop_back()) *)
| Resize (p : place) (n : nat)             (* p.asArray().resize(n) *)
| Clear (p : place)                        (* p.asArray().clear() *)
| Put (p : place) (k : bytes) (q : place)  (* p.asObject()[k] = q *)
| Erase (p : place) (k : bytes)            (* p.asObject().erase(k) *)
| Delegate (p : place) (a : nat).          (* p.delegate(o), o an object of the program *)

(** association lists *)
Fixpoint assoc {A} (k : bytes) (ms : list (bytes * A)) : option A :=
  match ms with
  | [] => None
  | (j, v) :: ms' => if bytes_eqb j k then Some v else assoc k ms'
  end.
Fixpoint assoc_set {A} (k : bytes) (v : A) (ms : list (bytes * A)) : list (bytes * A) :=
  match ms with
  | [] => [(k, v)]
  | (j, w) :: ms' => if bytes_eqb j k then (j, v) :: ms' else (j, w) :: assoc_set k v ms'
  end.
Fixpoint assoc_del {A} (k : bytes) (ms : list (bytes * A)) : list (bytes * A) :=
  match ms with
  | [] => []
  | (j, w) :: ms' => if bytes_eqb j k then ms' else (j, w) :: assoc_del k ms'
  end.
Fixpoint set_nth {A} (n : nat) (v : A) (l : list A) : list A :=
  match l, n with
  | [], _ => []
  | _ :: l', O => v :: l'
  | x :: l', S n' => x :: set_nth n' v l'
  end.

(** what is found at a place: a value, nothing (at() throws), or the way does not fit the types *)
Inductive found : Type := Found (t : tree) | Missing (e : exn) | Misuse.
Definition child (s : step) (t : tree) : found :=
  match s, t with
  | At n, TArr l => match nth_error l n with Some c => Found c | None => Missing OutOfRangeVector end
  | Member k, TObj ms => match assoc k ms with Some c => Found c | None => Missing OutOfRangeKey end
  | _, _ => Misuse
  end.
Definition set_child (s : step) (c t : tree) : tree :=
  match s, t with
  | At n, TArr l => TArr (set_nth n c l)
  | Member k, TObj ms => TObj (assoc_set k c ms)
  | _, _ => t
  end.
Fixpoint tget (p : list step) (t : tree) : found :=
  match p with
  | [] => Found t
  | s :: p' => match child s t with Found c => tget p' c | r => r end
  end.
Fixpoint tset (p : list step) (u t : tree) : tree :=
  match p with
  | [] => u
  | s :: p' => match child s t with Found c => set_child s (tset p' u c) t | _ => t end
  end.

(** [prefix p q]: the place [q] is [p] or inside [p] *)
Fixpoint prefix (p q : list step) : bool :=
  match p, q with
  | [], _ => true
  | s :: p', s' :: q' => step_eqb s s' && prefix p' q'
  | _ :: _, [] => false
  end.

(** the variables: which are alive, and their contents *)
Record env : Type := mkEnv { e_alive : list bool; e_vars : list tree }.
Definition full (p : place) : list step := At (fst p) :: snd p.
Definition whole (e : env) : tree := TArr (e_vars e).
Definition is_alive (l : list bool) (x : nat) : bool := nth x l false.
Definition vars_of (t : tree) : list tree := match t with TArr l => l | _ => [] end.

Definition eget (e : env) (p : place) : found := if is_alive (e_alive e) (fst p) then tget (full p) (whole e) else Misuse.
Definition eset (e : env) (p : place) (u : tree) : env := mkEnv (e_alive e) (vars_of (tset (full p) u (whole e))).
(** a variable begins or ends its life *)
Definition evar (e : env) (x : nat) (b : bool) (u : tree) : env := mkEnv (set_nth x b (e_alive e)) (set_nth x u (e_vars e)).
Definition is_fresh (e : env) (x : nat) : bool :=
  match nth_error (e_alive e) x with Some b => negb b | None => false end.

(** One operation: the variables afterwards and the exception thrown, if any.  [None]: outside the claim, because
    the program misuses a type, a dead variable or an empty array.  With [self = false] also, because it copies a
    value into itself or appends an element of an array to the same array. *)
Definition astep_of (self : bool) (e : env) (o : op) : option (env * option exn) :=
  let at_ p k := match eget e p with Found t => k t | Missing x => Some (e, Some x) | Misuse => None end in
  let ok e' := Some (e', None) in
  match o with
  | New x c => if is_fresh e x then ok (evar e x true (tree_of c)) else None
  | Copy x p => at_ p (fun t => if is_fresh e x then ok (evar e x true t) else None)
  | Move x p => at_ p (fun t => if is_fresh e x then ok (evar (eset e p TUndef) x true t) else None)
  | Assign p q =>
      at_ q (fun u => at_ p (fun t =>
        if negb self && (prefix (full q) (full p) && negb (kind_eqb (kind_of t) (kind_of u))) then None else ok (eset e p u)))
  | Destroy x => if is_alive (e_alive e) x then ok (evar e x false TUndef) else None
  | SetInt p z => at_ p (fun t => match t with TInt _ => ok (eset e p (TInt z)) | _ => None end)
  | SetStr p s => at_ p (fun t => match t with TStr _ => ok (eset e p (TStr s)) | _ => None end)
  | Push p q =>
      at_ q (fun u => at_ p (fun t =>
        match t with
        | TArr l =>
            if negb self && (prefix (full q) (full p) || (prefix (full p) (full q) && (length (full q) =? S (length (full p)))%nat)) then None
            else ok (eset e p (TArr (l ++ [u])))
        | _ => None
        end))
  | Pop x p =>
      at_ p (fun t =>
        match t with
        | TArr l => if is_fresh e x then match rev l with u :: r => ok (evar (eset e p (TArr (rev r))) x true u) | [] => None end else None
        | _ => None
        end)
  | Resize p n => at_ p (fun t => match t with TArr l => ok (eset e p (TArr (firstn n l ++ repeat TUndef (n - length l)))) | _ => None end)
  | Clear p => at_ p (fun t => match t with TArr _ => ok (eset e p (TArr [])) | _ => None end)
  | Put p k q =>
      at_ q (fun u => at_ p (fun t =>
        match t with
        | TObj ms =>
            if negb self && (prefix (full q) (full p) && match assoc k ms with Some c => negb (kind_eqb (kind_of c) (kind_of u)) | None => true end)
            then None else ok (eset e p (TObj (assoc_set k u ms)))
        | _ => None
        end))
  | Erase p k => at_ p (fun t => match t with TObj ms => ok (eset e p (TObj (assoc_del k ms))) | _ => None end)
  | Delegate _ _ => None
  end.

(** a program; exceptions are caught after each operation *)
Fixpoint arun_of (self : bool) (e : env) (l : list op) : option (env * list (option exn)) :=
  match l with
  | [] => Some (e, [])
  | o :: l' =>
      match astep_of self e o with
      | Some (e', x) => match arun_of self e' l' with Some (e'', xs) => Some (e'', x :: xs) | None => None end
      | None => None
      end
  end.

Notation astep := (astep_of false).
Notation arun := (arun_of false).

(** [n] variables, none alive *)
Definition env0 (n : nat) : env := mkEnv (repeat false n) (repeat TUndef n).

(** the operation changes variable [x] *)
Definition changes (x : nat) (o : op) : bool :=
  match o with
  | New y _ | Copy y _ | Destroy y => (y =? x)%nat
  | Move y p | Pop y p => (y =? x)%nat || (fst p =? x)%nat
  | Assign p _ | SetInt p _ | SetStr p _ | Push p _ | Resize p _ | Clear p | Put p _ _ | Erase p _ | Delegate p _ => (fst p =? x)%nat
  end.

(** ** Storage *)
(** the objects allocated for a value: one for an integer, string, array or object, and those of what it contains *)
Fixpoint blocks (t : tree) : nat :=
  match t with
  | TUndef | TBool _ => 0
  | TInt _ | TStr _ => 1
  | TArr l => S (list_sum (map blocks l))
  | TObj ms => S (list_sum (map (fun m => blocks (snd m)) ms))
  end.
(** no integer, and no array holding anything that needs storage *)
Fixpoint plain (t : tree) : bool :=
  match t with
  | TUndef | TBool _ | TStr _ => true
  | TInt _ => false
  | TArr l => forallb (fun c => match c with TUndef | TBool _ => true | _ => false end) l
  | TObj ms => forallb (fun m => plain (snd m)) ms
  end.
