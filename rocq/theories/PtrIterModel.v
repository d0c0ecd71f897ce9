(** Model of eni::PointerIterator (/repo/include/eni/adt/PointerIterator.h, bits/PointerIterator.tcc).

    A pointer is a block and an offset in elements; memory maps live blocks to their cells.  Pointer
    arithmetic that leaves [0, length] is undefined, as is subtraction across blocks; the order of
    pointers into different blocks is unspecified (an oracle). *)
From Verif Require Import Base PtrIterSpec.
From Coq Require Import List NArith ZArith Bool.
Import ListNotations.
Local Open Scope Z_scope.

(** PointerIterator.h:89 m_Ptr *)
Record piter : Type := mkP { blk : nat; off : Z }.

Section Model.
  Context {A : Type}.
  Variable unspecified : piter -> piter -> bool.

  (** The memory (the machine, not code) *)
  Definition mem : Type := nat -> option (list A).

  (** ptr + d: PointerIterator.tcc:56, 64, 71, 79, 86, 93, 99, 106 *)
  Definition ptr_add (m : mem) (p : piter) (d : Z) : outcome piter :=
    match m (blk p) with
    | None => UB DeadObject
    | Some cs =>
        let o := off p + d in
        if (0 <=? o) && (o <=? Z.of_nat (length cs)) then Ret (mkP (blk p) o) else UB OutOfBounds
    end.
  (** p - q: PointerIterator.tcc:112, 124 *)
  Definition ptr_diff (m : mem) (p q : piter) : outcome Z :=
    if Nat.eqb (blk p) (blk q)
    then match m (blk p) with None => UB DeadObject | Some _ => Ret (off p - off q) end
    else UB OutOfBounds.
  (** p > q: PointerIterator.tcc:130 *)
  Definition ptr_gt (p q : piter) : bool :=
    if Nat.eqb (blk p) (blk q) then off q <? off p else unspecified p q.
  (** p == q: PointerIterator.tcc:148 *)
  Definition ptr_eq (p q : piter) : bool := Nat.eqb (blk p) (blk q) && (off p =? off q).
  (** reading and writing through a pointer: PointerIterator.tcc:32, 38 *)
  Definition load (m : mem) (p : piter) : outcome A :=
    match m (blk p) with
    | None => UB DeadObject
    | Some cs => if off p <? 0 then UB OutOfBounds else
                 match nth_error cs (Z.to_nat (off p)) with Some a => Ret a | None => UB OutOfBounds end
    end.
  (** Writing through the reference of PointerIterator.tcc:29-33 *)
  Definition store (m : mem) (p : piter) (a : A) : outcome mem :=
    match m (blk p) with
    | None => UB DeadObject
    | Some cs =>
        if (0 <=? off p) && (off p <? Z.of_nat (length cs))
        then Ret (fun b => if Nat.eqb b (blk p) then Some (put cs (Z.to_nat (off p)) a) else m b)
        else UB OutOfBounds
    end.

  (** PointerIterator.tcc:18-21 copy constructor *)
  Definition pi_copy (p : piter) : piter := p.
  (** PointerIterator.tcc:23-27 operator=: no return statement *)
  Definition pi_assign (p q : piter) : outcome piter := UB MissingReturn.
  (** PointerIterator.tcc:41-51 operator-> *)
  Definition pi_arrow (p : piter) : piter := p.
  (** PointerIterator.tcc:29-39 operator* *)
  Definition pi_deref (m : mem) (p : piter) : outcome A := load m (pi_arrow p).
  (** PointerIterator.tcc:53-58 ++it *)
  Definition pi_inc (m : mem) (p : piter) : outcome piter := ptr_add m p 1.
  (** PointerIterator.tcc:60-66 it++: the iterator afterwards and the returned copy *)
  Definition pi_post_inc (m : mem) (p : piter) : outcome (piter * piter) :=
    let it := pi_copy p in p' <- ptr_add m p 1 ;; Ret (p', it).
  (** PointerIterator.tcc:68-73 --it *)
  Definition pi_dec (m : mem) (p : piter) : outcome piter := ptr_add m p (-1).
  (** PointerIterator.tcc:75-81 it-- *)
  Definition pi_post_dec (m : mem) (p : piter) : outcome (piter * piter) :=
    let it := pi_copy p in p' <- ptr_add m p (-1) ;; Ret (p', it).
  (** PointerIterator.tcc:83-88 it += n *)
  Definition pi_add_to (m : mem) (p : piter) (n : N) : outcome piter := ptr_add m p (Z.of_N n).
  (** PointerIterator.tcc:90-94 it + n *)
  Definition pi_add (m : mem) (p : piter) (n : N) : outcome piter := ptr_add m p (Z.of_N n).
  (** PointerIterator.tcc:96-101 it -= n *)
  Definition pi_sub_from (m : mem) (p : piter) (n : N) : outcome piter := ptr_add m p (- Z.of_N n).
  (** PointerIterator.tcc:103-107 it - n *)
  Definition pi_sub (m : mem) (p : piter) (n : N) : outcome piter := ptr_add m p (- Z.of_N n).
  (** PointerIterator.tcc:109-113 it - jt *)
  Definition pi_diff (m : mem) (p q : piter) : outcome Z := ptr_diff m p q.
  (** PointerIterator.tcc:115-119 it[n] *)
  Definition pi_index (m : mem) (p : piter) (n : N) : outcome A := q <- pi_add m p n ;; pi_deref m q.
  (** PointerIterator.tcc:121-155 comparisons; 121-125 < *)
  Definition pi_lt (m : mem) (p q : piter) : outcome bool := d <- ptr_diff m q p ;; Ret (0 <? d).
  (** PointerIterator.tcc:127-131 > *)
  Definition pi_gt (p q : piter) : bool := ptr_gt p q.
  (** PointerIterator.tcc:133-137 <= *)
  Definition pi_le (p q : piter) : bool := negb (pi_gt p q).
  (** PointerIterator.tcc:139-143 >= *)
  Definition pi_ge (m : mem) (p q : piter) : outcome bool := b <- pi_lt m p q ;; Ret (negb b).
  (** PointerIterator.tcc:145-149 == *)
  Definition pi_eq (p q : piter) : bool := ptr_eq p q.
  (** PointerIterator.tcc:151-155 != *)
  Definition pi_ne (p q : piter) : bool := negb (pi_eq p q).

  (** a program with several iterator variables  (not code) *)
  Record istate : Type := mkI { imem : mem; its : list piter }.
  (** An iterator variable (not code) *)
  Definition it_at (s : istate) (i : nat) : outcome piter :=
    match nth_error (its s) i with Some p => Ret p | None => UB DeadObject end.
  (** Iterator variable [i] afterwards (not code) *)
  Definition set_it (s : istate) (i : nat) (p : piter) : istate := mkI (imem s) (put (its s) i p).
  (** A new iterator variable (not code) *)
  Definition new_it (s : istate) (p : piter) : istate * ianswer A := (mkI (imem s) (its s ++ [p]), AIter (length (its s))).

  (** One call: PointerIterator.tcc:18-155 as above *)
  Definition istep (s : istate) (o : iop A) : outcome (istate * ianswer A) :=
    let m := imem s in
    match o with
    | ICopy i => p <- it_at s i ;; Ret (new_it s (pi_copy p))
    | IAssign i j => p <- it_at s i ;; q <- it_at s j ;; p' <- pi_assign p q ;; Ret (set_it s i p', AUnit)
    | IDeref i => p <- it_at s i ;; a <- pi_deref m p ;; Ret (s, AVal a)
    | IStore i a => p <- it_at s i ;; m' <- store m (pi_arrow p) a ;; Ret (mkI m' (its s), AUnit)
    | IInc i => p <- it_at s i ;; p' <- pi_inc m p ;; Ret (set_it s i p', AUnit)
    | IPostInc i => p <- it_at s i ;; '(p', r) <- pi_post_inc m p ;; Ret (new_it (set_it s i p') r)
    | IDec i => p <- it_at s i ;; p' <- pi_dec m p ;; Ret (set_it s i p', AUnit)
    | IPostDec i => p <- it_at s i ;; '(p', r) <- pi_post_dec m p ;; Ret (new_it (set_it s i p') r)
    | IAddTo i n => p <- it_at s i ;; p' <- pi_add_to m p n ;; Ret (set_it s i p', AUnit)
    | IAdd i n => p <- it_at s i ;; p' <- pi_add m p n ;; Ret (new_it s p')
    | ISubFrom i n => p <- it_at s i ;; p' <- pi_sub_from m p n ;; Ret (set_it s i p', AUnit)
    | ISub i n => p <- it_at s i ;; p' <- pi_sub m p n ;; Ret (new_it s p')
    | IDiff i j => p <- it_at s i ;; q <- it_at s j ;; d <- pi_diff m p q ;; Ret (s, ADiff d)
    | IIndex i n => p <- it_at s i ;; a <- pi_index m p n ;; Ret (s, AVal a)
    | ILt i j => p <- it_at s i ;; q <- it_at s j ;; b <- pi_lt m p q ;; Ret (s, ABool b)
    | IGt i j => p <- it_at s i ;; q <- it_at s j ;; Ret (s, ABool (pi_gt p q))
    | ILe i j => p <- it_at s i ;; q <- it_at s j ;; Ret (s, ABool (pi_le p q))
    | IGe i j => p <- it_at s i ;; q <- it_at s j ;; b <- pi_ge m p q ;; Ret (s, ABool b)
    | IEq i j => p <- it_at s i ;; q <- it_at s j ;; Ret (s, ABool (pi_eq p q))
    | INe i j => p <- it_at s i ;; q <- it_at s j ;; Ret (s, ABool (pi_ne p q))
    end.

  (** A program: one call after the other (not code) *)
  Fixpoint irun (s : istate) (l : list (iop A)) : outcome (istate * list (ianswer A)) :=
    match l with
    | [] => Ret (s, [])
    | o :: l' =>
        '(s', a) <- istep s o ;;
        '(s'', as_) <- irun s' l' ;;
        Ret (s'', a :: as_)
    end.
End Model.
Arguments mem A : clear implicits.
Arguments istate A : clear implicits.
