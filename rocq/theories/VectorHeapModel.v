(** Vectors with their memory (/repo/include/eni/adt/Vector.h, bits/Vector.tcc).

    VectorModel.v keeps the block of a vector inside the vector.  Here m_Data is an address, [None]
    the null pointer; the memory has the contents of every block that calloc, realloc or new has ever
    handed out, [None] once it was given back.  realloc always hands out a new block and takes the old
    one back (the old address is dead after it succeeds, C11 7.22.3.5).  What is done with the cells
    of one block is taken from VectorModel.v.  Arguments by const reference into the vector are the
    address they had when the call was made. *)
From Verif Require Import Base VectorSpec VectorModel.
From Coq Require Import List NArith Bool.
Import ListNotations.
Local Open Scope N_scope.

(** Vector.h:108-110 m_Data, m_DataSize, m_AllocSize *)
Record hvec : Type := mkH { hdata : option nat; hsize : N; halloc : N }.

Section Model.
  Context {A : Type}.
  Variables zero dflt : A.
  Variable esz : N.
  Variables calloc_ok realloc_ok : nat -> N -> bool.

  (** The memory of the machine (not code) *)
  Definition mem : Type := list (option (list (option A))).

  (** what is found at an address  (the machine, not code) *)
  Definition view (m : mem) (p : option nat) : ptr A :=
    match p with
    | None => Null
    | Some a => match nth_error m a with Some (Some cs) => Block cs | _ => Freed end
    end.

  (** the block at [p] has become [q]  (the machine, not code) *)
  Definition store (m : mem) (p : option nat) (q : ptr A) : mem :=
    match p, q with
    | Some a, Block cs => set_nth m a (Some cs)
    | _, _ => m
    end.

  (** std::free, and the block realloc takes back: Vector.tcc:364, 144 *)
  Definition release (m : mem) (p : option nat) : mem :=
    match p with Some a => set_nth m a None | None => m end.

  (** a new block  (the machine, not code) *)
  Definition obtain (m : mem) (cs : list (option A)) : option nat * mem := (Some (length m), m ++ [Some cs]).

  (** std::calloc(n, sizeof(ElementType)), Vector.tcc:16-43 *)
  Definition calloc_m (m : mem) (c : nat) (n : N) : option nat * mem :=
    match calloc zero esz calloc_ok c n with
    | Block cs => obtain m cs
    | _ => (None, m)
    end.

  (** m_Data[k], as [vread]: Vector.tcc:163, 169, 178, 187, 193, 199, 238 *)
  Definition hread (m : mem) (p : option nat) (k : N) : outcome A := vread (view m p) k.
  (** std::copy of [xs] to m_Data + k, as [vwrite]: Vector.tcc:30, 37, 44, 219, 232, 311 *)
  Definition hwrite (m : mem) (p : option nat) (k : N) (xs : list A) : outcome mem :=
    q <- vwrite (view m p) k xs ;; Ret (store m p q).
  (** std::fill_n(m_Data + k, n, a), as [vfill]: Vector.tcc:23, 114, 212, 297 *)
  Definition hfill (m : mem) (p : option nat) (k n : N) (a : A) : outcome mem :=
    q <- vfill (view m p) k n a ;; Ret (store m p q).
  (** std::copy and std::copy_backward inside the block, as [vmove]: Vector.tcc:296, 310, 348 *)
  Definition hmove (m : mem) (p : option nat) (src dst n : N) : outcome mem :=
    q <- vmove (view m p) src dst n ;; Ret (store m p q).
  (** All elements: begin() .. end(), Vector.tcc:67-89 *)
  Definition helems (m : mem) (v : hvec) : outcome (list A) := vreads (view m (hdata v)) 0 (N.to_nat (hsize v)).

  (** the vector, the memory, the number of allocator calls so far, the exception thrown
      (plumbing, not code) *)
  Definition hres : Type := hvec * mem * nat * option exn.

  (** An exception skips the rest (plumbing, not code) *)
  Definition h_andthen (r : outcome hres) (k : hvec -> mem -> nat -> outcome hres) : outcome hres :=
    '(v, m, c, e) <- r ;;
    match e with
    | None => k v m c
    | Some _ => Ret (v, m, c, e)
    end.

  (** Vector.tcc:130-152 reserve; realloc(p, 0) frees [p] and m_Data keeps the address *)
  Definition h_reserve (v : hvec) (m : mem) (c : nat) (n : N) : outcome hres :=
    if n <=? halloc v then Ret (v, m, c, None) else
    t <- grow 200 (halloc v) n ;;
    let sz := u64 (esz * t) in
    match view m (hdata v) with
    | Freed => UB DeadObject
    | Null =>
        if realloc_ok c sz
        then let '(p, m) := obtain m (repeat None (N.to_nat (sz / esz))) in
             Ret (mkH p (hsize v) n, m, S c, None)
        else Ret (v, m, S c, Some BadAllocNoMemory)
    | Block cs =>
        if sz =? 0 then Ret (v, release m (hdata v), S c, Some BadAllocNoMemory) else
        if realloc_ok c sz
        then let k := N.to_nat (sz / esz) in
             let '(p, m) := obtain (release m (hdata v)) (firstn k cs ++ repeat None (k - length cs)) in
             Ret (mkH p (hsize v) n, m, S c, None)
        else Ret (v, m, S c, Some BadAllocNoMemory)
    end.

  (** a const reference argument; [p0] is m_Data at the time of the call:
      pValue at Vector.tcc:114, 212, 232, 297 *)
  Definition h_arg (m : mem) (p0 : option nat) (x : varg A) : outcome A :=
    match x with
    | Val a => Ret a
    | Elem k => hread m p0 k
    end.

  (** Vector.tcc:109-116 resize(n, x); [p0] is m_Data when the caller bound the reference [x] *)
  Definition h_resize_with (p0 : option nat) (v : hvec) (m : mem) (c : nat) (n : N) (x : varg A) : outcome hres :=
    h_andthen (h_reserve v m c n) (fun v m c =>
    if hsize v <? n then
      a <- h_arg m p0 x ;;
      m <- hfill m (hdata v) (hsize v) (n - hsize v) a ;;
      Ret (mkH (hdata v) n (halloc v), m, c, None)
    else Ret (mkH (hdata v) n (halloc v), m, c, None)).

  (** Vector.tcc:103-107 resize(n) *)
  Definition h_resize (v : hvec) (m : mem) (c : nat) (n : N) : outcome hres := h_resize_with None v m c n (Val dflt).

  (** Vector.tcc:208-213 assign(n, x) *)
  Definition h_assign_n (v0 : hvec) (m : mem) (c : nat) (n : N) (x : varg A) : outcome hres :=
    h_andthen (h_resize v0 m c n) (fun v m c =>
    if n =? 0 then Ret (v, m, c, None) else
    a <- h_arg m (hdata v0) x ;;
    m <- hfill m (hdata v) 0 n a ;;
    Ret (v, m, c, None)).

  (** Vector.tcc:215-226 assign(first, last) with a range outside the vector *)
  Definition h_assign_list (v : hvec) (m : mem) (c : nat) (l : list A) : outcome hres :=
    h_andthen (h_resize v m c (N.of_nat (length l))) (fun v m c =>
    m <- hwrite m (hdata v) 0 l ;;
    Ret (v, m, c, None)).

  (** Vector.tcc:228-233 push_back *)
  Definition h_push_back (v0 : hvec) (m : mem) (c : nat) (x : varg A) : outcome hres :=
    h_andthen (h_reserve v0 m c (u64 (hsize v0 + 1))) (fun v m c =>
    a <- h_arg m (hdata v0) x ;;
    m <- hwrite m (hdata v) (hsize v) [a] ;;
    Ret (mkH (hdata v) (u64 (hsize v + 1)) (halloc v), m, c, None)).

  (** Vector.tcc:241-247 emplace_back: the object made by [new] is copied and never deleted *)
  Definition h_emplace_back (v0 : hvec) (m : mem) (c : nat) (a : A) : outcome hres :=
    h_andthen (h_reserve v0 m c (u64 (hsize v0 + 1))) (fun v m c =>
    let '(p, m) := obtain m [Some a] in
    b <- hread m p 0 ;;
    m <- hwrite m (hdata v) (hsize v) [b] ;;
    Ret (mkH (hdata v) (u64 (hsize v + 1)) (halloc v), m, c, None)).

  (** Vector.tcc:235-239 pop_back *)
  Definition h_pop_back (v : hvec) (m : mem) : outcome (hvec * A) :=
    let k := sub64 (hsize v) 1 in
    a <- hread m (hdata v) k ;;
    Ret (mkH (hdata v) k (halloc v), a).

  (** Vector.tcc:287-298 insert(index, n, x) *)
  Definition h_insert_n (v0 : hvec) (m : mem) (c : nat) (k n : N) (x : varg A) : outcome hres :=
    if hsize v0 <? k then Ret (v0, m, c, Some OutOfRangeVector) else
    h_andthen (h_resize v0 m c (u64 (hsize v0 + n))) (fun v m c =>
    if hsize v <? k + n then UB OutOfBounds else
    m <- hmove m (hdata v) k (k + n) (hsize v - n - k) ;;
    if n =? 0 then Ret (v, m, c, None) else
    a <- h_arg m (hdata v0) x ;;
    m <- hfill m (hdata v) k n a ;;
    Ret (v, m, c, None)).

  (** Vector.tcc:300-312 insert(index, first, last) with a range outside the vector *)
  Definition h_insert_list (v0 : hvec) (m : mem) (c : nat) (k : N) (l : list A) : outcome hres :=
    if hsize v0 <? k then Ret (v0, m, c, Some OutOfRangeVector) else
    let n := N.of_nat (length l) in
    h_andthen (h_resize v0 m c (u64 (hsize v0 + n))) (fun v m c =>
    if hsize v <? k + n then UB OutOfBounds else
    m <- hmove m (hdata v) k (k + n) (hsize v - n - k) ;;
    m <- hwrite m (hdata v) k l ;;
    Ret (v, m, c, None)).

  (** Vector.tcc:342-350 erase(first, last) *)
  Definition h_erase_range (v : hvec) (m : mem) (c : nat) (f e : N) : outcome hres :=
    if (e <=? f) || (hsize v <=? e) then Ret (v, m, c, Some OutOfRangeVector) else
    m <- hmove m (hdata v) e f (hsize v - e) ;;
    h_resize v m c (hsize v - (e - f)).

  (** Vector.tcc:336-340 erase(index) *)
  Definition h_erase_at (v : hvec) (m : mem) (c : nat) (k : N) : outcome hres := h_erase_range v m c k (u64 (k + 1)).

  (** Vector.tcc:360-369 clear; also the destructor, 47-51.  Freeing a dead address is undefined. *)
  Definition h_clear (v : hvec) (m : mem) : outcome (hvec * mem) :=
    match view m (hdata v) with
    | Null => Ret (mkH None 0 0, m)
    | Freed => UB DeadObject
    | Block _ => Ret (mkH None 0 0, release m (hdata v))
    end.

  (** The vectors of a program, the memory, the number of allocator calls so far (not code) *)
  Record hstate : Type := mkHS { hobjs : list (option hvec); hm : mem; hcalls : nat }.
  (** No vector yet (not code) *)
  Definition hstate0 : hstate := mkHS [] [] 0.

  (** The vector a member function is called on (not code) *)
  Definition h_obj (s : hstate) (i : nat) : outcome hvec :=
    match nth_error (hobjs s) i with
    | Some (Some v) => Ret v
    | _ => UB DeadObject
    end.
  (** Vector [i] afterwards (not code) *)
  Definition h_put (s : hstate) (i : nat) (m : mem) (v : option hvec) : hstate := mkHS (set_nth (hobjs s) i v) m (hcalls s).
  (** A new vector (not code) *)
  Definition h_add (s : hstate) (m : mem) (c : nat) (v : hvec) : hstate * vanswer A :=
    (mkHS (hobjs s ++ [Some v]) m c, RObj (length (hobjs s))).

  (** the caller catches the exception  (not code) *)
  Definition h_finish (s : hstate) (i : nat) (r : hres) : hstate * vanswer A :=
    match r with
    | (v, m, c, None) => (mkHS (set_nth (hobjs s) i (Some v)) m c, RUnit)
    | (v, m, c, Some e) => (mkHS (set_nth (hobjs s) i (Some v)) m c, RThrow e)
    end.

  (** One call; the lines are those of Vector.tcc *)
  Definition hvstep (s : hstate) (o : vop A) : outcome (hstate * vanswer A) :=
    let c := hcalls s in
    let m := hm s in
    match o with
    | VNew => Ret (h_add s m c (mkH None 0 0))                                     (* Vector.tcc:8-11  *)
    | VSized n => let '(p, m) := calloc_m m c n in Ret (h_add s m (S c) (mkH p n n))     (* 13-17 *)
    | VFilled n a =>                                                               (* 19-24 *)
        let '(p, m) := calloc_m m c n in
        m <- hfill m p 0 n a ;; Ret (h_add s m (S c) (mkH p n n))
    | VList l =>                                                                   (* 26-31, 40-45 *)
        let n := N.of_nat (length l) in
        let '(p, m) := calloc_m m c n in
        m <- hwrite m p 0 l ;; Ret (h_add s m (S c) (mkH p n n))
    | VCopy i =>                                                                   (* 33-38 *)
        v <- h_obj s i ;;
        let '(p, m) := calloc_m m c (hsize v) in
        l <- helems m v ;;
        m <- hwrite m p 0 l ;; Ret (h_add s m (S c) (mkH p (hsize v) (hsize v)))
    | VDestroy i => v <- h_obj s i ;; '(_, m) <- h_clear v m ;; Ret (h_put s i m None, RUnit)
    | VAssign i j =>                                                               (* 53-58 *)
        v <- h_obj s i ;; w <- h_obj s j ;;
        r <- (if Nat.eqb i j then h_resize v m c (hsize v) else l <- helems m w ;; h_assign_list v m c l) ;;
        Ret (h_finish s i r)
    | VAssignList i l => v <- h_obj s i ;; r <- h_assign_list v m c l ;; Ret (h_finish s i r)
    | VAssignN i n x => v <- h_obj s i ;; r <- h_assign_n v m c n x ;; Ret (h_finish s i r)
    | VSize i => v <- h_obj s i ;; Ret (s, RNum (hsize v))                         (* 91-95 *)
    | VEmpty i => v <- h_obj s i ;; Ret (s, RBool (hsize v =? 0))                  (* 118-122 *)
    | VResize i n => v <- h_obj s i ;; r <- h_resize v m c n ;; Ret (h_finish s i r)
    | VResizeWith i n x => v <- h_obj s i ;; r <- h_resize_with (hdata v) v m c n x ;; Ret (h_finish s i r)
    | VReserve i n => v <- h_obj s i ;; r <- h_reserve v m c n ;; Ret (h_finish s i r)
    | VGet i k => v <- h_obj s i ;; a <- hread m (hdata v) k ;; Ret (s, RVal a)    (* 160-170, 190-194 *)
    | VSet i k a =>
        v <- h_obj s i ;; m <- hwrite m (hdata v) k [a] ;; Ret (h_put s i m (Some v), RUnit)
    | VAt i k =>                                                                   (* 172-188 *)
        v <- h_obj s i ;;
        if hsize v <=? k then Ret (s, RThrow OutOfRangeVector) else a <- hread m (hdata v) k ;; Ret (s, RVal a)
    | VBack i => v <- h_obj s i ;; a <- hread m (hdata v) (sub64 (hsize v) 1) ;; Ret (s, RVal a)   (* 196-200 *)
    | VPush i x => v <- h_obj s i ;; r <- h_push_back v m c x ;; Ret (h_finish s i r)
    | VEmplace i a => v <- h_obj s i ;; r <- h_emplace_back v m c a ;; Ret (h_finish s i r)
    | VPop i => v <- h_obj s i ;; '(v', a) <- h_pop_back v m ;; Ret (h_put s i m (Some v'), RVal a)
    | VInsert i k n x => v <- h_obj s i ;; r <- h_insert_n v m c k n x ;; Ret (h_finish s i r)
    | VInsertList i k l => v <- h_obj s i ;; r <- h_insert_list v m c k l ;; Ret (h_finish s i r)
    | VErase i k => v <- h_obj s i ;; r <- h_erase_at v m c k ;; Ret (h_finish s i r)
    | VEraseRange i f e => v <- h_obj s i ;; r <- h_erase_range v m c f e ;; Ret (h_finish s i r)
    | VSwap i j =>                                                                 (* 352-358 *)
        v <- h_obj s i ;; w <- h_obj s j ;;
        Ret (h_put (h_put s i m (Some w)) j m (Some v), RUnit)
    | VClear i => v <- h_obj s i ;; '(v', m) <- h_clear v m ;; Ret (h_put s i m (Some v'), RUnit)
    | VElems i => v <- h_obj s i ;; l <- helems m v ;; Ret (s, RList l)
    end.

  (** A program: one call after the other (not code) *)
  Fixpoint hvrun (s : hstate) (l : list (vop A)) : outcome (hstate * list (vanswer A)) :=
    match l with
    | [] => Ret (s, [])
    | o :: l' =>
        '(s', a) <- hvstep s o ;;
        '(s'', as_) <- hvrun s' l' ;;
        Ret (s'', a :: as_)
    end.

  (** blocks handed out and not given back.  (An observation, not code.) *)
  Definition live_blocks (s : hstate) : nat :=
    length (filter (fun b => match b with Some _ => true | None => false end) (hm s)).

  (** vectors alive whose m_Data is a block.  (An observation, not code.) *)
  Definition blocks_held (s : hstate) : nat :=
    length (filter (fun o => match o with
                             | Some v => match view (hm s) (hdata v) with Block _ => true | _ => false end
                             | None => false
                             end) (hobjs s)).
End Model.
Arguments hstate A : clear implicits.
Arguments mem A : clear implicits.
