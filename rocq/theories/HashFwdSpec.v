(** Specification of forward iterators over several sequences of entries: an iterator is a place in
    one of the sequences, or past the end.  Nothing here refers to the model of the code. *)
From Coq Require Import List Arith Bool.
Import ListNotations.

Section Calls.
  Context {K V : Type}.

  (** Calls of a program which holds several iterators and several tables.  The numbers [x], [y] name
      iterators, [a] names a table. *)
  Inductive fop : Type :=
  | FDefault (x : nat)             (* it = iterator()      *)
  | FBegin (x a : nat)             (* it = t.begin()       *)
  | FEnd (x a : nat)               (* it = t.end()         *)
  | FFind (x a : nat) (k : K)      (* it = t.find(k)       *)
  | FCopy (x y : nat)              (* it = jt              *)
  | FInc (x : nat)                 (* ++it                 *)
  | FPost (x y : nat)              (* it = jt++            *)
  | FEq (x y : nat)                (* it == jt             *)
  | FNe (x y : nat)                (* it != jt             *)
  | FGet (x : nat)                 (* it->key(), it->value() *)
  | FSet (x : nat) (v : V).        (* it->setValue(v)      *)

  Inductive fanswer : Type :=
  | FDone
  | FBool (b : bool)
  | FEntry (k : K) (v : V)
  | FThrown.                       (* LogicError<InvalidIteratorEmpty>, caught *)
End Calls.
Arguments fop : clear implicits.
Arguments fanswer : clear implicits.

Section Spec.
  Context {K V : Type}.
  Variable keqb : K -> K -> bool.

  (** [Some (a, p)]: the entry number [p] of table [a]; [None]: past the end, the same for all tables *)
  Definition place : Type := option (nat * nat).

  Fixpoint replace {B} (l : list B) (i : nat) (b : B) : list B :=
    match l, i with
    | [], _ => []
    | _ :: l', O => b :: l'
    | x :: l', S i' => x :: replace l' i' b
    end.

  Fixpoint index_of (es : list (K * V)) (k : K) : option nat :=
    match es with
    | [] => None
    | e :: es' => if keqb (fst e) k then Some 0 else option_map S (index_of es' k)
    end.

  (** the place of entry [p] of the sequence [es] of table [a], if there is such an entry *)
  Definition at_pos (es : list (K * V)) (a p : nat) : place :=
    match nth_error es p with Some _ => Some (a, p) | None => None end.

  Definition place_eqb (u v : place) : bool :=
    match u, v with
    | None, None => true
    | Some (a, p), Some (b, q) => Nat.eqb a b && Nat.eqb p q
    | _, _ => false
    end.

  (** the sequences and the iterators *)
  Definition fworld : Type := (list (list (K * V)) * list place)%type.

  (** One call.  [None]: the program names an iterator or a table that does not exist. *)
  Definition fspec_step (w : fworld) (o : fop K V) : option (fworld * fanswer K V) :=
    let '(ess, vs) := w in
    let store x (u : place) :=
      match nth_error vs x with Some _ => Some ((ess, replace vs x u), FDone) | None => None end in
    match o with
    | FDefault x => store x None
    | FBegin x a => match nth_error ess a with Some es => store x (at_pos es a 0) | None => None end
    | FEnd x a => match nth_error ess a with Some _ => store x None | None => None end
    | FFind x a k =>
        match nth_error ess a with
        | Some es => store x (match index_of es k with Some p => Some (a, p) | None => None end)
        | None => None
        end
    | FCopy x y => match nth_error vs y with Some u => store x u | None => None end
    | FInc x =>
        match nth_error vs x with
        | None => None
        | Some None => Some (w, FThrown)
        | Some (Some (a, p)) =>
            match nth_error ess a with Some es => store x (at_pos es a (S p)) | None => None end
        end
    | FPost x y =>
        match nth_error vs x, nth_error vs y with
        | Some _, Some None => Some (w, FThrown)
        | Some _, Some (Some (a, p)) =>
            match nth_error ess a with
            | Some es => Some ((ess, replace (replace vs y (at_pos es a (S p))) x (Some (a, p))), FDone)
            | None => None
            end
        | _, _ => None
        end
    | FEq x y =>
        match nth_error vs x, nth_error vs y with
        | Some u, Some v => Some (w, FBool (place_eqb u v))
        | _, _ => None
        end
    | FNe x y =>
        match nth_error vs x, nth_error vs y with
        | Some u, Some v => Some (w, FBool (negb (place_eqb u v)))
        | _, _ => None
        end
    | FGet x =>
        match nth_error vs x with
        | None => None
        | Some None => Some (w, FThrown)
        | Some (Some (a, p)) =>
            match nth_error ess a with
            | Some es => match nth_error es p with Some (k, v) => Some (w, FEntry k v) | None => None end
            | None => None
            end
        end
    | FSet x v =>
        match nth_error vs x with
        | None => None
        | Some None => Some (w, FThrown)
        | Some (Some (a, p)) =>
            match nth_error ess a with
            | Some es =>
                match nth_error es p with
                | Some (k, _) => Some ((replace ess a (replace es p (k, v)), vs), FDone)
                | None => None
                end
            | None => None
            end
        end
    end.

  Fixpoint fspec_run (w : fworld) (l : list (fop K V)) : option (fworld * list (fanswer K V)) :=
    match l with
    | [] => Some (w, [])
    | o :: l' =>
        match fspec_step w o with
        | None => None
        | Some (w', r) =>
            match fspec_run w' l' with
            | None => None
            | Some (w'', rs) => Some (w'', r :: rs)
            end
        end
    end.
End Spec.
