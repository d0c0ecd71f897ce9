(** Specification of eni::Vector: a collection of mathematical sequences. *)
From Verif Require Import Base.
From Coq Require Import List NArith Bool.
Import ListNotations.
Local Open Scope N_scope.

(** Arguments passed by const reference: a value of the caller's, or element [k] of the vector the
    call is made on ([v.push_back(v[k])]). *)
Inductive varg (A : Type) : Type :=
| Val (a : A)
| Elem (k : N).
Arguments Val {A} a.
Arguments Elem {A} k.

(** Calls; the first number is the vector they are made on. *)
Inductive vop (A : Type) : Type :=
| VNew                                  (* Vector()                        *)
| VSized (n : N)                        (* Vector(n)                       *)
| VFilled (n : N) (a : A)               (* Vector(n, a)                    *)
| VList (l : list A)                    (* Vector(std::vector), Vector({}) *)
| VCopy (i : nat)                       (* Vector(const Vector&)           *)
| VDestroy (i : nat)
| VAssign (i j : nat)                   (* v_i = v_j                       *)
| VAssignList (i : nat) (l : list A)    (* v_i = {..}, assign(first, last) *)
| VAssignN (i : nat) (n : N) (x : varg A)
| VSize (i : nat)
| VEmpty (i : nat)
| VResize (i : nat) (n : N)
| VResizeWith (i : nat) (n : N) (x : varg A)
| VReserve (i : nat) (n : N)
| VGet (i : nat) (k : N)                (* v[k], front() is k = 0          *)
| VSet (i : nat) (k : N) (a : A)        (* v[k] = a                        *)
| VAt (i : nat) (k : N)
| VBack (i : nat)
| VPush (i : nat) (x : varg A)
| VEmplace (i : nat) (a : A)
| VPop (i : nat)
| VInsert (i : nat) (k : N) (n : N) (x : varg A)   (* by index or iterator *)
| VInsertList (i : nat) (k : N) (l : list A)
| VErase (i : nat) (k : N)
| VEraseRange (i : nat) (f l : N)
| VSwap (i j : nat)
| VClear (i : nat)
| VElems (i : nat).                     (* begin() .. end()                *)
Arguments VNew {A}.
Arguments VSized {A} n.
Arguments VFilled {A} n a.
Arguments VList {A} l.
Arguments VCopy {A} i.
Arguments VDestroy {A} i.
Arguments VAssign {A} i j.
Arguments VAssignList {A} i l.
Arguments VAssignN {A} i n x.
Arguments VSize {A} i.
Arguments VEmpty {A} i.
Arguments VResize {A} i n.
Arguments VResizeWith {A} i n x.
Arguments VReserve {A} i n.
Arguments VGet {A} i k.
Arguments VSet {A} i k a.
Arguments VAt {A} i k.
Arguments VBack {A} i.
Arguments VPush {A} i x.
Arguments VEmplace {A} i a.
Arguments VPop {A} i.
Arguments VInsert {A} i k n x.
Arguments VInsertList {A} i k l.
Arguments VErase {A} i k.
Arguments VEraseRange {A} i f l.
Arguments VSwap {A} i j.
Arguments VClear {A} i.
Arguments VElems {A} i.

Inductive vanswer (A : Type) : Type :=
| RUnit
| RObj (i : nat)
| RVal (a : A)
| RNum (n : N)
| RBool (b : bool)
| RList (l : list A)
| RThrow (e : exn).
Arguments RUnit {A}.
Arguments RObj {A} i.
Arguments RVal {A} a.
Arguments RNum {A} n.
Arguments RBool {A} b.
Arguments RList {A} l.
Arguments RThrow {A} e.

Section Spec.
  Context {A : Type}.
  Variables zero dflt : A.    (* all bytes zero; value_type() *)
  Variable esz : N.           (* sizeof(value_type) *)

  (** The live vectors; [None] once destroyed. *)
  Definition world : Type := list (option (list A)).

  Definition len (l : list A) : N := N.of_nat (length l).
  (** The elements occupy less than 2^63 bytes, the limit of every C++ object. *)
  Definition fits (n : N) : bool := n * esz <? 2^63.

  Definition arg (l : list A) (x : varg A) : option A :=
    match x with Val a => Some a | Elem k => nth_error l (N.to_nat k) end.

  Fixpoint set_nth {B} (l : list B) (i : nat) (b : B) : list B :=
    match l, i with
    | [], _ => []
    | _ :: l', O => b :: l'
    | x :: l', S i' => x :: set_nth l' i' b
    end.

  Definition take (n : N) (l : list A) : list A := firstn (N.to_nat n) l.
  Definition drop (n : N) (l : list A) : list A := skipn (N.to_nat n) l.
  Definition copies (n : N) (a : A) : list A := repeat a (N.to_nat n).

  (** [l] with length [n]: cut, or extended by copies of [a] *)
  Definition resized (l : list A) (n : N) (a : A) : list A := take n l ++ copies (n - len l) a.

  (** What a call on the sequence [l] does: the new sequence and the answer; [None] when the call has
      no meaning (reading outside the sequence, popping from an empty one, more than 2^63 bytes). *)
  Definition on_seq (l : list A) (o : vop A) : option (list A * vanswer A) :=
    let ok (l' : list A) (a : vanswer A) := if fits (len l') then Some (l', a) else None in
    match o with
    | VAssignList _ xs => ok xs RUnit
    | VAssignN _ n x => if fits n then match arg l x with Some a => ok (copies n a) RUnit | None => None end else None
    | VSize _ => Some (l, RNum (len l))
    | VEmpty _ => Some (l, RBool (len l =? 0))
    | VResize _ n => if fits n then ok (resized l n dflt) RUnit else None
    | VResizeWith _ n x => if fits n then match arg l x with Some a => ok (resized l n a) RUnit | None => None end else None
    | VReserve _ n => if fits n then Some (l, RUnit) else None
    | VGet _ k => if k <? len l then match nth_error l (N.to_nat k) with Some a => Some (l, RVal a) | None => None end else None
    | VSet _ k a => if k <? len l then Some (set_nth l (N.to_nat k) a, RUnit) else None
    | VAt _ k => if k <? len l then match nth_error l (N.to_nat k) with Some a => Some (l, RVal a) | None => None end
                 else Some (l, RThrow OutOfRangeVector)
    | VBack _ => match rev l with a :: _ => Some (l, RVal a) | [] => None end
    | VPush _ x => match arg l x with Some a => ok (l ++ [a]) RUnit | None => None end
    | VEmplace _ a => ok (l ++ [a]) RUnit
    | VPop _ => match rev l with a :: l' => Some (rev l', RVal a) | [] => None end
    | VInsert _ k n x =>
        if len l <? k then Some (l, RThrow OutOfRangeVector) else
        if fits (len l + n) then match arg l x with Some a => ok (take k l ++ copies n a ++ drop k l) RUnit | None => None end else None
    | VInsertList _ k xs =>
        if len l <? k then Some (l, RThrow OutOfRangeVector) else ok (take k l ++ xs ++ drop k l) RUnit
    | VErase _ k =>
        if k <? len l then Some (take k l ++ drop (k + 1) l, RUnit) else Some (l, RThrow OutOfRangeVector)
    | VEraseRange _ f e =>
        if (f <=? e) && (e <=? len l) then Some (take f l ++ drop e l, RUnit) else Some (l, RThrow OutOfRangeVector)
    | VClear _ => Some ([], RUnit)
    | VElems _ => Some (l, RList l)
    | _ => None
    end.

  (** the vector a call is made on *)
  Definition target (o : vop A) : option nat :=
    match o with
    | VNew | VSized _ | VFilled _ _ | VList _ | VCopy _ | VSwap _ _ | VAssign _ _ | VDestroy _ => None
    | VAssignList i _ | VAssignN i _ _ | VSize i | VEmpty i | VResize i _ | VResizeWith i _ _ | VReserve i _
    | VGet i _ | VSet i _ _ | VAt i _ | VBack i | VPush i _ | VEmplace i _ | VPop i | VInsert i _ _ _
    | VInsertList i _ _ | VErase i _ | VEraseRange i _ _ | VClear i | VElems i => Some i
    end.

  Definition live (w : world) (i : nat) : option (list A) :=
    match nth_error w i with Some (Some l) => Some l | _ => None end.

  Definition vspec (w : world) (o : vop A) : option (world * vanswer A) :=
    let new (l : list A) := if fits (len l) then Some (w ++ [Some l], RObj (length w)) else None in
    match o with
    | VNew => new []
    | VSized n => if fits n then new (copies n zero) else None
    | VFilled n a => if fits n then new (copies n a) else None
    | VList l => new l
    | VCopy i => match live w i with Some l => new l | None => None end
    | VDestroy i => match live w i with Some l => Some (set_nth w i None, RUnit) | None => None end
    | VAssign i j =>
        match live w i, live w j with Some _, Some l => Some (set_nth w i (Some l), RUnit) | _, _ => None end
    | VSwap i j =>
        match live w i, live w j with
        | Some li, Some lj => Some (set_nth (set_nth w i (Some lj)) j (Some li), RUnit)
        | _, _ => None
        end
    | _ =>
        match target o with
        | Some i => match live w i with
                    | Some l => match on_seq l o with
                                | Some (l', a) => Some (set_nth w i (Some l'), a)
                                | None => None
                                end
                    | None => None
                    end
        | None => None
        end
    end.

  Fixpoint vspec_run (w : world) (l : list (vop A)) : option (world * list (vanswer A)) :=
    match l with
    | [] => Some (w, [])
    | o :: l' =>
        match vspec w o with
        | None => None
        | Some (w', a) => match vspec_run w' l' with Some (w'', as_) => Some (w'', a :: as_) | None => None end
        end
    end.

  (** Histories in which memory may run out: a refused allocation is answered by bad_alloc and leaves
      everything as it was. *)
  Definition allocates (o : vop A) : Prop :=
    match o with
    | VAssign _ _ | VAssignList _ _ | VAssignN _ _ _ | VResize _ _ | VResizeWith _ _ _ | VReserve _ _
    | VPush _ _ | VEmplace _ _ | VInsert _ _ _ _ | VInsertList _ _ _ => True
    | _ => False
    end.

  Inductive vexec : world -> list (vop A) -> list (vanswer A) -> world -> Prop :=
  | vexec_nil w : vexec w [] [] w
  | vexec_ok w o a w1 l as_ w2 : vspec w o = Some (w1, a) -> vexec w1 l as_ w2 -> vexec w (o :: l) (a :: as_) w2
  | vexec_nomem w o l as_ w2 : allocates o -> vexec w l as_ w2 -> vexec w (o :: l) (RThrow BadAllocNoMemory :: as_) w2.

  (** The calls on which the implementation is known to depart from the specification:
      arguments that are elements of the vector itself, and erasing up to the end or nothing. *)
  Definition own (x : varg A) : bool := match x with Val _ => false | Elem _ => true end.
  Definition uses_own (o : vop A) : bool :=
    match o with
    | VAssignN _ _ x | VResizeWith _ _ x | VPush _ x | VInsert _ _ _ x => own x
    | _ => false
    end.
  Definition erases (o : vop A) : Prop :=
    match o with
    | VErase _ _ | VEraseRange _ _ _ => True
    | _ => False
    end.
  Definition departs (w : world) (o : vop A) : bool :=
    match o with
    | VAssignN _ _ x | VResizeWith _ _ x | VPush _ x | VInsert _ _ _ x => own x
    | VErase i k => match live w i with Some l => k + 1 =? len l | None => false end
    | VEraseRange i f e => match live w i with Some l => (f <=? e) && (e <=? len l) && ((f =? e) || (e =? len l)) | None => false end
    | _ => false
    end.

  (** no call of the history departs *)
  Fixpoint no_departure (w : world) (l : list (vop A)) : Prop :=
    match l with
    | [] => True
    | o :: l' => departs w o = false /\ match vspec w o with Some (w', _) => no_departure w' l' | None => True end
    end.
End Spec.
