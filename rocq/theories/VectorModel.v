(** Model of eni::Vector (/repo/include/eni/adt/Vector.h, bits/Vector.tcc).

    Elements are trivially copyable.  A vector owns its block, so blocks are kept inside the vector;
    a cell of a block is [None] while its content is indeterminate.  calloc(0) is taken to return a
    block of length 0 (a null pointer would do as well: nothing is accessed).
    Whether an allocation succeeds is decided by two oracles which see the number of the call and
    the size in bytes. *)
From Verif Require Import Base VectorSpec.
From Coq Require Import List NArith ZArith Bool.
Import ListNotations.
Local Open Scope N_scope.

(** What m_Data points to, Vector.h:108; a block comes from calloc or realloc, Vector.tcc:16, 22, 29, 36,
    43, 144 *)
Inductive ptr (A : Type) : Type :=
| Null
| Freed                              (* points to a block that was given back *)
| Block (cells : list (option A)).
Arguments Null {A}.
Arguments Freed {A}.
Arguments Block {A} cells.

(** Vector.h:108-110 m_Data, m_DataSize, m_AllocSize *)
Record vec (A : Type) : Type := mkV { vdata : ptr A; vsize : N; valloc : N }.
Arguments mkV {A} vdata vsize valloc.
Arguments vdata {A} v.
Arguments vsize {A} v.
Arguments valloc {A} v.

Section Model.
  Context {A : Type}.
  Variables zero dflt : A.
  Variable esz : N.
  Variables calloc_ok realloc_ok : nat -> N -> bool.

  Notation vec := (vec A).

  (** Vector.tcc:97-101 max_size() *)
  Definition max_size : N := 18446744073709551615.

  (** ---------------------------------------------------------------- memory *)

  (** The length of a block (the machine, not code) *)
  Definition ncells (cs : list (option A)) : N := N.of_nat (length cs).

  (** [m_Data[k]] as an rvalue, Vector.tcc:163, 169, 178, 187, 193, 199, 238 *)
  Definition vread (p : ptr A) (k : N) : outcome A :=
    match p with
    | Null => UB NullDeref
    | Freed => UB DeadObject
    | Block cs =>
        if k <? ncells cs then
          match nth_error cs (N.to_nat k) with
          | Some (Some a) => Ret a
          | Some None => UB Uninitialised
          | None => UB OutOfBounds
          end
        else UB OutOfBounds
    end.

  (** cells [k .. k + length xs) become [xs]  (the machine, not code) *)
  Definition splice {B} (cs : list B) (k : nat) (xs : list B) : list B :=
    firstn k cs ++ xs ++ skipn (k + length xs) cs.

  (** std::copy of [xs] (not in the block) to [m_Data + k], Vector.tcc:30, 37, 44, 219, 311; one cell: 232 *)
  Definition vwrite (p : ptr A) (k : N) (xs : list A) : outcome (ptr A) :=
    match xs, p with
    | [], _ => Ret p
    | _, Null => UB NullDeref
    | _, Freed => UB DeadObject
    | _, Block cs =>
        if k + N.of_nat (length xs) <=? ncells cs
        then Ret (Block (splice cs (N.to_nat k) (map Some xs)))
        else UB OutOfBounds
    end.

  (** std::fill_n(m_Data + k, n, a), Vector.tcc:23, 114, 212, 297 *)
  Definition vfill (p : ptr A) (k n : N) (a : A) : outcome (ptr A) :=
    if n =? 0 then Ret p else
    match p with
    | Null => UB NullDeref
    | Freed => UB DeadObject
    | Block cs =>
        if k + n <=? ncells cs
        then Ret (Block (splice cs (N.to_nat k) (repeat (Some a) (N.to_nat n))))
        else UB OutOfBounds
    end.

  (** std::copy / std::copy_backward of the cells [src .. src + n) to [dst .. dst + n),
      Vector.tcc:296, 310, 348 *)
  Definition vmove (p : ptr A) (src dst n : N) : outcome (ptr A) :=
    if n =? 0 then Ret p else
    match p with
    | Null => UB NullDeref
    | Freed => UB DeadObject
    | Block cs =>
        if (src + n <=? ncells cs) && (dst + n <=? ncells cs)
        then Ret (Block (splice cs (N.to_nat dst) (firstn (N.to_nat n) (skipn (N.to_nat src) cs))))
        else UB OutOfBounds
    end.

  (** reading begin() .. end(), Vector.tcc:67-89 *)
  Fixpoint vreads (p : ptr A) (k : N) (n : nat) : outcome (list A) :=
    match n with
    | O => Ret []
    | S n' => a <- vread p k ;; l <- vreads p (k + 1) n' ;; Ret (a :: l)
    end.
  (** All elements: begin() .. end(), Vector.tcc:67-89 *)
  Definition velems (v : vec) : outcome (list A) := vreads (vdata v) 0 (N.to_nat (vsize v)).

  (** std::calloc(n, sizeof(ElementType)); the caller does not test for null: Vector.tcc:16, 22, 29, 36, 43 *)
  Definition calloc (c : nat) (n : N) : ptr A :=
    if (n * esz <=? max_size) && calloc_ok c (n * esz) then Block (repeat (Some zero) (N.to_nat n)) else Null.

  (** ---------------------------------------------------------------- functions that may throw *)

  (** the vector, the number of allocator calls so far, the exception thrown  (plumbing, not code) *)
  Definition res : Type := vec * nat * option exn.

  (** sequencing: an exception skips the rest  (plumbing, not code) *)
  Definition andthen (m : outcome res) (k : vec -> nat -> outcome res) : outcome res :=
    '(v, c, e) <- m ;;
    match e with
    | None => k v c
    | Some _ => Ret (v, c, e)
    end.

  (** Vector.tcc:138-140, the loop in reserve: doubling on 64 bits.  VectorProof.v shows that a loop
      that has not ended after 200 rounds never ends. *)
  Fixpoint grow (fuel : nat) (target n : N) : outcome N :=
    if (target <? n) && (target <? max_size)
    then match fuel with
         | O => Diverge
         | S f => grow f (if 0 <? target then u64 (target * 2) else 1) n
         end
    else Ret target.

  (** Vector.tcc:130-152 reserve.  The size in bytes is computed on 64 bits; realloc(p, 0) frees [p].
      [targetSize > max_size()] is never true. *)
  Definition reserve (v : vec) (c : nat) (n : N) : outcome res :=
    if n <=? valloc v then Ret (v, c, None) else
    t <- grow 200 (valloc v) n ;;
    let sz := u64 (esz * t) in
    match vdata v with
    | Freed => UB DeadObject
    | Null =>
        if realloc_ok c sz
        then Ret (mkV (Block (repeat None (N.to_nat (sz / esz)))) (vsize v) n, S c, None)
        else Ret (v, S c, Some BadAllocNoMemory)
    | Block cs =>
        if sz =? 0 then Ret (mkV Freed (vsize v) (valloc v), S c, Some BadAllocNoMemory) else
        if realloc_ok c sz
        then let m := N.to_nat (sz / esz) in
             Ret (mkV (Block (firstn m cs ++ repeat None (m - length cs))) (vsize v) n, S c, None)
        else Ret (v, S c, Some BadAllocNoMemory)
    end.

  (** a const reference argument, used after a reserve(n) that started from [v0]: references into the
      block are dead once it was reallocated: pValue at Vector.tcc:114, 212, 232, 297 *)
  Definition use_arg (v0 : vec) (n : N) (v : vec) (x : varg A) : outcome A :=
    match x with
    | Val a => Ret a
    | Elem k => if n <=? valloc v0 then vread (vdata v) k else UB DeadObject
    end.

  (** Vector.tcc:109-116 resize(n, x) *)
  Definition resize_with (v0 : vec) (c : nat) (n : N) (x : varg A) : outcome res :=
    andthen (reserve v0 c n) (fun v c =>
    if vsize v <? n then
      a <- use_arg v0 n v x ;;
      p <- vfill (vdata v) (vsize v) (n - vsize v) a ;;
      Ret (mkV p n (valloc v), c, None)
    else Ret (mkV (vdata v) n (valloc v), c, None)).

  (** Vector.tcc:103-107 resize(n) *)
  Definition resize (v : vec) (c : nat) (n : N) : outcome res := resize_with v c n (Val dflt).

  (** Vector.tcc:208-213 assign(n, x) *)
  Definition assign_n (v0 : vec) (c : nat) (n : N) (x : varg A) : outcome res :=
    andthen (resize v0 c n) (fun v c =>
    if n =? 0 then Ret (v, c, None) else
    a <- use_arg v0 n v x ;;
    p <- vfill (vdata v) 0 n a ;;
    Ret (mkV p (vsize v) (valloc v), c, None)).

  (** Vector.tcc:215-226 assign(first, last) with a range outside the vector *)
  Definition assign_list (v : vec) (c : nat) (l : list A) : outcome res :=
    andthen (resize v c (N.of_nat (length l))) (fun v c =>
    p <- vwrite (vdata v) 0 l ;;
    Ret (mkV p (vsize v) (valloc v), c, None)).

  (** Vector.tcc:228-233 push_back *)
  Definition push_back (v0 : vec) (c : nat) (x : varg A) : outcome res :=
    let n := u64 (vsize v0 + 1) in
    andthen (reserve v0 c n) (fun v c =>
    a <- use_arg v0 n v x ;;
    p <- vwrite (vdata v) (vsize v) [a] ;;
    Ret (mkV p (u64 (vsize v + 1)) (valloc v), c, None)).

  (** Vector.tcc:235-239 pop_back *)
  Definition pop_back (v : vec) : outcome (vec * A) :=
    let k := sub64 (vsize v) 1 in
    a <- vread (vdata v) k ;;
    Ret (mkV (vdata v) k (valloc v), a).

  (** Vector.tcc:287-298 insert(index, n, x); copy_backward to a place before the block is undefined *)
  Definition insert_n (v0 : vec) (c : nat) (k n : N) (x : varg A) : outcome res :=
    if vsize v0 <? k then Ret (v0, c, Some OutOfRangeVector) else
    let m := u64 (vsize v0 + n) in
    andthen (resize v0 c m) (fun v c =>
    if vsize v <? k + n then UB OutOfBounds else
    p <- vmove (vdata v) k (k + n) (vsize v - n - k) ;;
    if n =? 0 then Ret (mkV p (vsize v) (valloc v), c, None) else
    a <- use_arg v0 m (mkV p (vsize v) (valloc v)) x ;;
    p <- vfill p k n a ;;
    Ret (mkV p (vsize v) (valloc v), c, None)).

  (** Vector.tcc:300-312 insert(index, first, last) with a range outside the vector *)
  Definition insert_list (v0 : vec) (c : nat) (k : N) (l : list A) : outcome res :=
    if vsize v0 <? k then Ret (v0, c, Some OutOfRangeVector) else
    let n := N.of_nat (length l) in
    andthen (resize v0 c (u64 (vsize v0 + n))) (fun v c =>
    if vsize v <? k + n then UB OutOfBounds else
    p <- vmove (vdata v) k (k + n) (vsize v - n - k) ;;
    p <- vwrite p k l ;;
    Ret (mkV p (vsize v) (valloc v), c, None)).

  (** Vector.tcc:342-350 erase(first, last) *)
  Definition erase_range (v : vec) (c : nat) (f e : N) : outcome res :=
    if (e <=? f) || (vsize v <=? e) then Ret (v, c, Some OutOfRangeVector) else
    p <- vmove (vdata v) e f (vsize v - e) ;;
    resize (mkV p (vsize v) (valloc v)) c (vsize v - (e - f)).

  (** Vector.tcc:336-340 erase(index) *)
  Definition erase_at (v : vec) (c : nat) (k : N) : outcome res := erase_range v c k (u64 (k + 1)).

  (** Vector.tcc:360-369 clear; also the destructor, 47-51 *)
  Definition vclear (v : vec) : outcome vec :=
    match vdata v with
    | Freed => UB DeadObject
    | _ => Ret (mkV Null 0 0)
    end.

  (** ---------------------------------------------------------------- a program with several vectors *)

  (** The vectors of a program and the number of allocator calls so far (not code) *)
  Record vstate : Type := mkS { objs : list (option vec); calls : nat }.
  (** No vector yet (not code) *)
  Definition vstate0 : vstate := mkS [] 0.

  (** The vector a member function is called on (not code) *)
  Definition get_obj (s : vstate) (i : nat) : outcome vec :=
    match nth_error (objs s) i with
    | Some (Some v) => Ret v
    | _ => UB DeadObject
    end.
  (** Vector [i] afterwards (not code) *)
  Definition set_obj (s : vstate) (i : nat) (v : option vec) : vstate := mkS (set_nth (objs s) i v) (calls s).
  (** A new vector (not code) *)
  Definition add_obj (s : vstate) (c : nat) (v : vec) : vstate * vanswer A :=
    (mkS (objs s ++ [Some v]) c, RObj (length (objs s))).

  (** the caller catches the exception  (not code) *)
  Definition finish (s : vstate) (i : nat) (r : res) : vstate * vanswer A :=
    match r with
    | (v, c, None) => (mkS (set_nth (objs s) i (Some v)) c, RUnit)
    | (v, c, Some e) => (mkS (set_nth (objs s) i (Some v)) c, RThrow e)
    end.

  (** One call; the lines are those of Vector.tcc *)
  Definition vstep (s : vstate) (o : vop A) : outcome (vstate * vanswer A) :=
    let c := calls s in
    match o with
    | VNew => Ret (add_obj s c (mkV Null 0 0))                                     (* Vector.tcc:8-11  *)
    | VSized n => Ret (add_obj s (S c) (mkV (calloc c n) n n))                     (* Vector.tcc:13-17 *)
    | VFilled n a => p <- vfill (calloc c n) 0 n a ;; Ret (add_obj s (S c) (mkV p n n))   (* 19-24 *)
    | VList l =>                                                                   (* 26-31, 40-45 *)
        let n := N.of_nat (length l) in
        p <- vwrite (calloc c n) 0 l ;; Ret (add_obj s (S c) (mkV p n n))
    | VCopy i =>                                                                   (* 33-38 *)
        v <- get_obj s i ;; l <- velems v ;;
        p <- vwrite (calloc c (vsize v)) 0 l ;; Ret (add_obj s (S c) (mkV p (vsize v) (vsize v)))
    | VDestroy i => v <- get_obj s i ;; v' <- vclear v ;; Ret (set_obj s i None, RUnit)
    | VAssign i j =>                                                               (* 53-58 *)
        v <- get_obj s i ;; w <- get_obj s j ;;
        r <- (if Nat.eqb i j then resize v c (vsize v) else l <- velems w ;; assign_list v c l) ;;
        Ret (finish s i r)
    | VAssignList i l => v <- get_obj s i ;; r <- assign_list v c l ;; Ret (finish s i r)
    | VAssignN i n x => v <- get_obj s i ;; r <- assign_n v c n x ;; Ret (finish s i r)
    | VSize i => v <- get_obj s i ;; Ret (s, RNum (vsize v))                       (* 91-95 *)
    | VEmpty i => v <- get_obj s i ;; Ret (s, RBool (vsize v =? 0))                (* 118-122 *)
    | VResize i n => v <- get_obj s i ;; r <- resize v c n ;; Ret (finish s i r)
    | VResizeWith i n x => v <- get_obj s i ;; r <- resize_with v c n x ;; Ret (finish s i r)
    | VReserve i n => v <- get_obj s i ;; r <- reserve v c n ;; Ret (finish s i r)
    | VGet i k => v <- get_obj s i ;; a <- vread (vdata v) k ;; Ret (s, RVal a)    (* 160-170, 190-194 *)
    | VSet i k a =>
        v <- get_obj s i ;; p <- vwrite (vdata v) k [a] ;;
        Ret (set_obj s i (Some (mkV p (vsize v) (valloc v))), RUnit)
    | VAt i k =>                                                                   (* 172-188 *)
        v <- get_obj s i ;;
        if vsize v <=? k then Ret (s, RThrow OutOfRangeVector) else a <- vread (vdata v) k ;; Ret (s, RVal a)
    | VBack i => v <- get_obj s i ;; a <- vread (vdata v) (sub64 (vsize v) 1) ;; Ret (s, RVal a)   (* 196-200 *)
    | VPush i x => v <- get_obj s i ;; r <- push_back v c x ;; Ret (finish s i r)
    | VEmplace i a => v <- get_obj s i ;; r <- push_back v c (Val a) ;; Ret (finish s i r)   (* 241-247 *)
    | VPop i => v <- get_obj s i ;; '(v', a) <- pop_back v ;; Ret (set_obj s i (Some v'), RVal a)
    | VInsert i k n x => v <- get_obj s i ;; r <- insert_n v c k n x ;; Ret (finish s i r)
    | VInsertList i k l => v <- get_obj s i ;; r <- insert_list v c k l ;; Ret (finish s i r)
    | VErase i k => v <- get_obj s i ;; r <- erase_at v c k ;; Ret (finish s i r)
    | VEraseRange i f e => v <- get_obj s i ;; r <- erase_range v c f e ;; Ret (finish s i r)
    | VSwap i j =>                                                                 (* 352-358 *)
        v <- get_obj s i ;; w <- get_obj s j ;;
        Ret (set_obj (set_obj s i (Some w)) j (Some v), RUnit)
    | VClear i => v <- get_obj s i ;; v' <- vclear v ;; Ret (set_obj s i (Some v'), RUnit)
    | VElems i => v <- get_obj s i ;; l <- velems v ;; Ret (s, RList l)
    end.

  (** A program: one call after the other (not code) *)
  Fixpoint vrun (s : vstate) (l : list (vop A)) : outcome (vstate * list (vanswer A)) :=
    match l with
    | [] => Ret (s, [])
    | o :: l' =>
        '(s', a) <- vstep s o ;;
        '(s'', as_) <- vrun s' l' ;;
        Ret (s'', a :: as_)
    end.

  (** [s] is reached by a program whose mathematical counterpart is in [w]: every call had a meaning,
      none had an element of its own vector as argument, and each answered as specified, or threw and
      left everything as it was.  (Not code.) *)
  Inductive reached : vstate -> world (A:=A) -> Prop :=
  | reached_start : reached vstate0 []
  | reached_ok s w o s' w' a :
      reached s w -> vstep s o = Ret (s', a) -> vspec zero dflt esz w o = Some (w', a) -> departs w o = false ->
      reached s' w'
  | reached_threw s w o s' e :
      reached s w -> vstep s o = Ret (s', RThrow e) -> vspec zero dflt esz w o <> None -> uses_own o = false ->
      allocates o \/ erases o -> reached s' w.
End Model.
Arguments vstate A : clear implicits.
