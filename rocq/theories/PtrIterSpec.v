(** Specification of random-access iterators over one sequence: an iterator is a position. *)
From Verif Require Import Base.
From Coq Require Import List NArith ZArith Bool.
Import ListNotations.
Local Open Scope Z_scope.

(** Calls of a program which holds several iterators; the numbers [i], [j] name them.  Calls returning an
    iterator by value put it into a new variable; calls returning *this are listed without that result. *)
Inductive iop (A : Type) : Type :=
| ICopy (i : nat)                (* iterator(it)        *)
| IAssign (i j : nat)            (* it = jt             *)
| IDeref (i : nat)               (* *it, it->           *)
| IStore (i : nat) (a : A)       (* *it = a             *)
| IInc (i : nat)                 (* ++it                *)
| IPostInc (i : nat)             (* it++                *)
| IDec (i : nat)                 (* --it                *)
| IPostDec (i : nat)             (* it--                *)
| IAddTo (i : nat) (n : N)       (* it += n             *)
| IAdd (i : nat) (n : N)         (* it + n              *)
| ISubFrom (i : nat) (n : N)     (* it -= n             *)
| ISub (i : nat) (n : N)         (* it - n              *)
| IDiff (i j : nat)              (* it - jt             *)
| IIndex (i : nat) (n : N)       (* it[n]               *)
| ILt (i j : nat) | IGt (i j : nat) | ILe (i j : nat) | IGe (i j : nat) | IEq (i j : nat) | INe (i j : nat).
Arguments ICopy {A} i.
Arguments IAssign {A} i j.
Arguments IDeref {A} i.
Arguments IStore {A} i a.
Arguments IInc {A} i.
Arguments IPostInc {A} i.
Arguments IDec {A} i.
Arguments IPostDec {A} i.
Arguments IAddTo {A} i n.
Arguments IAdd {A} i n.
Arguments ISubFrom {A} i n.
Arguments ISub {A} i n.
Arguments IDiff {A} i j.
Arguments IIndex {A} i n.
Arguments ILt {A} i j.
Arguments IGt {A} i j.
Arguments ILe {A} i j.
Arguments IGe {A} i j.
Arguments IEq {A} i j.
Arguments INe {A} i j.

Inductive ianswer (A : Type) : Type :=
| AUnit
| AIter (i : nat)
| AVal (a : A)
| ADiff (z : Z)
| ABool (b : bool).
Arguments AUnit {A}.
Arguments AIter {A} i.
Arguments AVal {A} a.
Arguments ADiff {A} z.
Arguments ABool {A} b.

Section Spec.
  Context {A : Type}.

  (** the sequence, and the positions of the iterators: 0 .. length, the end included *)
  Record iworld : Type := mkW { items : list A; pos : list Z }.

  Definition elem (l : list A) (p : Z) : option A := if p <? 0 then None else nth_error l (Z.to_nat p).
  Fixpoint put {B} (l : list B) (i : nat) (b : B) : list B :=
    match l, i with
    | [], _ => []
    | _ :: l', O => b :: l'
    | x :: l', S i' => x :: put l' i' b
    end.

  Definition valid (w : iworld) (p : Z) : bool := (0 <=? p) && (p <=? Z.of_nat (length (items w))).
  Definition move (w : iworld) (i : nat) (p : Z) (a : ianswer A) : option (iworld * ianswer A) :=
    if valid w p then Some (mkW (items w) (put (pos w) i p), a) else None.
  Definition fresh (w : iworld) (p : Z) : option (iworld * ianswer A) :=
    if valid w p then Some (mkW (items w) (pos w ++ [p]), AIter (length (pos w))) else None.
  Definition compare (w : iworld) (i j : nat) (f : Z -> Z -> bool) : option (iworld * ianswer A) :=
    match nth_error (pos w) i, nth_error (pos w) j with
    | Some p, Some p' => Some (w, ABool (f p p'))
    | _, _ => None
    end.
  Definition at_ (w : iworld) (i : nat) (k : Z -> option (iworld * ianswer A)) : option (iworld * ianswer A) :=
    match nth_error (pos w) i with Some p => k p | None => None end.
  Definition value (w : iworld) (p : Z) : option (iworld * ianswer A) :=
    match elem (items w) p with Some a => Some (w, AVal a) | None => None end.

  Definition ispec (w : iworld) (o : iop A) : option (iworld * ianswer A) :=
    match o with
    | ICopy i => at_ w i (fun p => fresh w p)
    | IAssign i j => at_ w i (fun _ => at_ w j (fun p => move w i p AUnit))
    | IDeref i => at_ w i (fun p => value w p)
    | IStore i a => at_ w i (fun p =>
        match elem (items w) p with
        | Some _ => Some (mkW (put (items w) (Z.to_nat p) a) (pos w), AUnit)
        | None => None
        end)
    | IInc i => at_ w i (fun p => move w i (p + 1) AUnit)
    | IPostInc i => at_ w i (fun p =>
        if valid w (p + 1) then Some (mkW (items w) (put (pos w) i (p + 1) ++ [p]), AIter (length (pos w))) else None)
    | IDec i => at_ w i (fun p => move w i (p - 1) AUnit)
    | IPostDec i => at_ w i (fun p =>
        if valid w (p - 1) then Some (mkW (items w) (put (pos w) i (p - 1) ++ [p]), AIter (length (pos w))) else None)
    | IAddTo i n => at_ w i (fun p => move w i (p + Z.of_N n) AUnit)
    | IAdd i n => at_ w i (fun p => fresh w (p + Z.of_N n))
    | ISubFrom i n => at_ w i (fun p => move w i (p - Z.of_N n) AUnit)
    | ISub i n => at_ w i (fun p => fresh w (p - Z.of_N n))
    | IDiff i j => at_ w i (fun p => at_ w j (fun p' => Some (w, ADiff (p - p'))))
    | IIndex i n => at_ w i (fun p => value w (p + Z.of_N n))
    | ILt i j => compare w i j Z.ltb
    | IGt i j => compare w i j Z.gtb
    | ILe i j => compare w i j Z.leb
    | IGe i j => compare w i j Z.geb
    | IEq i j => compare w i j Z.eqb
    | INe i j => compare w i j (fun p p' => negb (p =? p'))
    end.

  Fixpoint ispec_run (w : iworld) (l : list (iop A)) : option (iworld * list (ianswer A)) :=
    match l with
    | [] => Some (w, [])
    | o :: l' =>
        match ispec w o with
        | None => None
        | Some (w', a) => match ispec_run w' l' with Some (w'', as_) => Some (w'', a :: as_) | None => None end
        end
    end.

  Definition assigns (o : iop A) : bool := match o with IAssign _ _ => true | _ => false end.
End Spec.
Arguments iworld A : clear implicits.
