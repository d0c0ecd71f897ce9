(** Spec for C112: programs with a vector and iterators, as programs with a sequence and positions. *)
From Verif Require Import Base VectorSpec.
From Coq Require Import List NArith Bool.
Import ListNotations.
Local Open Scope N_scope.

(** Calls; iterators are kept in variables, numbered in the order in which they were made. *)
Inductive iop (A : Type) : Type :=
| IBegin                                (* a new variable: v.begin()       *)
| IEnd                                  (* a new variable: v.end()         *)
| ICopy (j : nat)                       (* a new variable: a copy of it_j  *)
| INext (j : nat)                       (* ++it_j                          *)
| IPrev (j : nat)                       (* --it_j                          *)
| IGet (j : nat)                        (* *it_j                           *)
| ISet (j : nat) (a : A)                (* *it_j = a                       *)
| IEq (j j' : nat)                      (* it_j == it_j'                   *)
| IIndex (j : nat)                      (* it_j - v.begin()                *)
| IInsert (j : nat) (n : N) (a : A)     (* a new variable: v.insert(it_j, n, a)   *)
| IInsertList (j : nat) (l : list A)    (* a new variable: v.insert(it_j, {..})   *)
| IErase (j : nat)                      (* a new variable: v.erase(it_j)          *)
| IEraseRange (j j' : nat)              (* a new variable: v.erase(it_j, it_j')   *)
| IPush (a : A)
| IPop
| IResize (n : N)
| IReserve (n : N)
| IClear.
Arguments IBegin {A}.
Arguments IEnd {A}.
Arguments ICopy {A} j.
Arguments INext {A} j.
Arguments IPrev {A} j.
Arguments IGet {A} j.
Arguments ISet {A} j a.
Arguments IEq {A} j j'.
Arguments IIndex {A} j.
Arguments IInsert {A} j n a.
Arguments IInsertList {A} j l.
Arguments IErase {A} j.
Arguments IEraseRange {A} j j'.
Arguments IPush {A} a.
Arguments IPop {A}.
Arguments IResize {A} n.
Arguments IReserve {A} n.
Arguments IClear {A}.

Inductive ianswer (A : Type) : Type :=
| IUnit
| IVal (a : A)
| IBool (b : bool)
| INum (n : N)
| IThrow (e : exn).
Arguments IUnit {A}.
Arguments IVal {A} a.
Arguments IBool {A} b.
Arguments INum {A} n.
Arguments IThrow {A} e.

Section Spec.
  Context {A : Type}.
  Variable dflt : A.
  Variable esz : N.

  (** A sequence, the number of elements there is room for, and the positions of the iterators; [None] once an iterator must not be
      used any more. *)
  Record places : Type := mkPl { items : list A; room : N; pos : list (option N) }.
  Definition places0 : places := mkPl [] 0 [].

  Definition pos_of (p : places) (j : nat) : option N := match nth_error (pos p) j with Some (Some k) => Some k | _ => None end.
  (** the sequence has become [l]; there must be room for [n] elements: if there is not, more room is made and all iterators are lost *)
  Definition grown (p : places) (l : list A) (n : N) : places :=
    if n <=? room p then mkPl l (room p) (pos p) else mkPl l n (map (fun _ => None) (pos p)).
  Definition with_pos (p : places) (k : option N) : places := mkPl (items p) (room p) (pos p ++ [k]).
  Definition to_pos (p : places) (j : nat) (k : N) : places := mkPl (items p) (room p) (set_nth (pos p) j (Some k)).

  (** What a call does and answers; [None]: it has no meaning. *)
  Definition ispec (p : places) (o : iop A) : option (places * ianswer A) :=
    let l := items p in
    match o with
    | IBegin => Some (with_pos p (Some 0), IUnit)
    | IEnd => Some (with_pos p (Some (len l)), IUnit)
    | ICopy j => match pos_of p j with Some k => Some (with_pos p (Some k), IUnit) | None => None end
    | INext j => match pos_of p j with Some k => if k <? len l then Some (to_pos p j (k + 1), IUnit) else None | None => None end
    | IPrev j => match pos_of p j with Some k => if 0 <? k then Some (to_pos p j (k - 1), IUnit) else None | None => None end
    | IGet j => match pos_of p j with
                | Some k => match nth_error l (N.to_nat k) with Some a => Some (p, IVal a) | None => None end
                | None => None
                end
    | ISet j a => match pos_of p j with
                  | Some k => if k <? len l then Some (mkPl (set_nth l (N.to_nat k) a) (room p) (pos p), IUnit) else None
                  | None => None
                  end
    | IEq j j' => match pos_of p j, pos_of p j' with Some k, Some k' => Some (p, IBool (k =? k')) | _, _ => None end
    | IIndex j => match pos_of p j with Some k => Some (p, INum k) | None => None end
    | IInsert j n a =>
        match pos_of p j with
        | Some k => if (k <=? len l) && fits esz (len l + n)
                    then Some (with_pos (grown p (take k l ++ copies n a ++ drop k l) (len l + n)) (Some k), IUnit) else None
        | None => None
        end
    | IInsertList j xs =>
        match pos_of p j with
        | Some k => if (k <=? len l) && fits esz (len l + len xs)
                    then Some (with_pos (grown p (take k l ++ xs ++ drop k l) (len l + len xs)) (Some k), IUnit) else None
        | None => None
        end
    | IErase j =>
        match pos_of p j with
        | Some k => if k <? len l then
                      if k + 1 <? len l then Some (with_pos (mkPl (take k l ++ drop (k + 1) l) (room p) (pos p)) (Some k), IUnit)
                      else Some (p, IThrow OutOfRangeVector)          (* the last element: refused *)
                    else None
        | None => None
        end
    | IEraseRange j j' =>
        match pos_of p j, pos_of p j' with
        | Some k, Some k' =>
            if (k <=? k') && (k' <=? len l) then
              if (k <? k') && (k' <? len l) then Some (with_pos (mkPl (take k l ++ drop k' l) (room p) (pos p)) (Some k), IUnit)
              else Some (p, IThrow OutOfRangeVector)                  (* nothing, or up to the end: refused *)
            else None
        | _, _ => None
        end
    | IPush a => if fits esz (len l + 1) then Some (grown p (l ++ [a]) (len l + 1), IUnit) else None
    | IPop => match rev l with a :: l' => Some (mkPl (rev l') (room p) (pos p), IVal a) | [] => None end
    | IResize n => if fits esz n then Some (grown p (resized l n dflt) n, IUnit) else None
    | IReserve n => if fits esz n then Some (grown p l n, IUnit) else None
    | IClear => Some (mkPl [] 0 (map (fun _ => None) (pos p)), IUnit)
    end.

  (** the number of elements a call needs room for *)
  Definition needs (p : places) (o : iop A) : N :=
    match o with
    | IInsert _ n _ => len (items p) + n
    | IInsertList _ xs => len (items p) + len xs
    | IPush _ => len (items p) + 1
    | IResize n | IReserve n => n
    | _ => 0
    end.

  (** A program and its answers. Memory may be refused to a call that needs more room: it throws and nothing has changed. *)
  Inductive iexec : places -> list (iop A) -> list (ianswer A) -> places -> Prop :=
  | iexec_nil p : iexec p [] [] p
  | iexec_ok p o a p1 l as_ p2 : ispec p o = Some (p1, a) -> iexec p1 l as_ p2 -> iexec p (o :: l) (a :: as_) p2
  | iexec_nomem p o l as_ p2 : ispec p o <> None -> room p < needs p o -> iexec p l as_ p2 ->
      iexec p (o :: l) (IThrow BadAllocNoMemory :: as_) p2.
End Spec.
Arguments places A : clear implicits.
