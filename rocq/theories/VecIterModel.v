(** Model of the functions of eni::Vector that take and return iterators, and of loops that use them
    (/repo/include/eni/adt/Vector.h, bits/Vector.tcc, bits/PointerIterator.tcc).

    A vector is that of VectorModel.v and the number of the block m_Data points to: whenever realloc has
    succeeded, every earlier pointer into the block is dead.  An iterator is the number of a block and an
    offset in elements.  The null pointers of a vector that has no block yet are taken as such iterators too, dead
    once there is a block. *)
From Verif Require Import Base VectorSpec VectorModel VecIterOps.
From Coq Require Import List NArith Bool.
Import ListNotations.
Local Open Scope N_scope.

(** Vector.h:107-110 with the number of the block *)
Record ivec (A : Type) : Type := mkIV { iv : vec A; iblock : nat }.
Arguments mkIV {A} iv iblock.
Arguments iv {A} i.
Arguments iblock {A} i.
(** PointerIterator.h:89 m_Ptr *)
Record viter : Type := mkVI { vblock : nat; voff : N }.

Section Model.
  Context {A : Type}.
  Variable dflt : A.
  Variable esz : N.
  Variable realloc_ok : nat -> N -> bool.

  Notation ivec := (ivec A).

  (** Vector.tcc:67-71 begin() *)
  Definition it_begin (v : ivec) : viter := mkVI (iblock v) 0.
  (** Vector.tcc:79-83 end() *)
  Definition it_end (v : ivec) : viter := mkVI (iblock v) (vsize (iv v)).
  (** a pointer into a block that was given back is not to be used  (the machine, not code) *)
  Definition it_use {B} (v : ivec) (it : viter) (m : outcome B) : outcome B :=
    if Nat.eqb (vblock it) (iblock v) then m else UB DeadObject.
  (** pIt - begin(): PointerIterator.tcc:109-113, Vector.tcc:252, 260, 268, 276, 323, 331, 332 *)
  Definition it_index (v : ivec) (it : viter) : outcome N := it_use v it (Ret (voff it)).
  (** PointerIterator.tcc:29-39 operator* , read and written *)
  Definition it_deref (v : ivec) (it : viter) : outcome A := it_use v it (vread (vdata (iv v)) (voff it)).
  (** The same, written *)
  Definition it_store (v : ivec) (it : viter) (a : A) : outcome ivec :=
    it_use v it (p <- vwrite (vdata (iv v)) (voff it) [a] ;; Ret (mkIV (mkV p (vsize (iv v)) (valloc (iv v))) (iblock v))).
  (** PointerIterator.tcc:53-58 ++it *)
  Definition it_next (v : ivec) (it : viter) : outcome viter :=
    it_use v it
      match vdata (iv v) with
      | Null => UB NullDeref
      | Freed => UB DeadObject
      | Block cs => if voff it + 1 <=? ncells cs then Ret (mkVI (vblock it) (voff it + 1)) else UB OutOfBounds
      end.
  (** PointerIterator.tcc:145-149 it == other, both into the block of [v] *)
  Definition it_eq (v : ivec) (it other : viter) : outcome bool := it_use v it (it_use v other (Ret (voff it =? voff other))).
  (** PointerIterator.tcc:18-21 the copy constructor *)
  Definition it_copy (it other : viter) : outcome viter := Ret other.
  (** PointerIterator.tcc:23-27 operator=: no return statement *)
  Definition it_assign (it other : viter) : outcome viter := UB MissingReturn.

  (** the vector afterwards, and the iterator [m_Data + k] or the exception: the last lines of
      Vector.tcc:249-279 and 320-334.  The block is another one if realloc was called and did not fail. *)
  Definition settle (v : ivec) (c : nat) (r : res) (k : N) : ivec * nat * (viter + exn) :=
    match r with
    | (v', c', None) =>
        let b := if Nat.eqb c' c then iblock v else S (iblock v) in (mkIV v' b, c', inl (mkVI b k))
    | (v', c', Some e) => (mkIV v' (iblock v), c', inr e)
    end.
  (** Vector.tcc:249-263 insert(it, x), insert(it, n, x) *)
  Definition it_insert (v : ivec) (c : nat) (it : viter) (n : N) (x : varg A) : outcome (ivec * nat * (viter + exn)) :=
    k <- it_index v it ;; r <- insert_n dflt esz realloc_ok (iv v) c k n x ;; Ret (settle v c r k).
  (** Vector.tcc:265-279 insert(it, first, last), insert(it, {..}), a range outside the vector *)
  Definition it_insert_list (v : ivec) (c : nat) (it : viter) (l : list A) : outcome (ivec * nat * (viter + exn)) :=
    k <- it_index v it ;; r <- insert_list dflt esz realloc_ok (iv v) c k l ;; Ret (settle v c r k).
  (** Vector.tcc:320-326 erase(it) *)
  Definition it_erase (v : ivec) (c : nat) (it : viter) : outcome (ivec * nat * (viter + exn)) :=
    k <- it_index v it ;; r <- erase_at dflt esz realloc_ok (iv v) c k ;; Ret (settle v c r k).
  (** Vector.tcc:328-334 erase(first, last) *)
  Definition it_erase_range (v : ivec) (c : nat) (first last : viter) : outcome (ivec * nat * (viter + exn)) :=
    k <- it_index v first ;; k' <- it_index v last ;;
    r <- erase_range dflt esz realloc_ok (iv v) c k k' ;; Ret (settle v c r k).

  (** Vector.tcc:300-312 insert(index, first, last) where the range is the elements [f .. e) of the vector
      itself.  The iterators of a reallocated block are dead; std::copy into its own range is undefined. *)
  Definition insert_own_range (v0 : vec A) (c : nat) (k f e : N) : outcome res :=
    if vsize v0 <? k then Ret (v0, c, Some OutOfRangeVector) else
    let n := sub64 e f in
    let m := u64 (vsize v0 + n) in
    andthen (resize dflt esz realloc_ok v0 c m) (fun v c =>
    if vsize v <? k + n then UB OutOfBounds else
    p <- vmove (vdata v) k (k + n) (vsize v - n - k) ;;
    if n =? 0 then Ret (mkV p (vsize v) (valloc v), c, None) else
    if valloc v0 <? m then UB DeadObject else
    if (f <=? k) && (k <? e) then UB OutOfBounds else
    p <- vmove p f k n ;;
    Ret (mkV p (vsize v) (valloc v), c, None)).
  (** Vector.tcc:215-220 assign(first, last) where the range is the elements [f .. e) of the vector itself;
      std::copy to the place where its range begins (f = 0) copies every element to itself *)
  Definition assign_own_range (v0 : vec A) (c : nat) (f e : N) : outcome res :=
    let n := sub64 e f in
    andthen (resize dflt esz realloc_ok v0 c n) (fun v c =>
    if n =? 0 then Ret (v, c, None) else
    if valloc v0 <? n then UB DeadObject else
    p <- vmove (vdata v) f 0 n ;;
    Ret (mkV p (vsize v) (valloc v), c, None)).

  (** The usual loop (a program, not code of the library)
        for (it = v.begin(); it != v.end();) if (p( *it)) it = v.erase(it); else ++it;
      where [set] stands for the assignment *)
  Fixpoint erase_loop (set : viter -> viter -> outcome viter) (p : A -> bool) (fuel : nat) (v : ivec) (c : nat) (it : viter)
      : outcome (ivec * nat * option exn) :=
    match fuel with
    | O => Diverge
    | S fuel' =>
        stop <- it_eq v it (it_end v) ;;
        if stop : bool then Ret (v, c, None) else
        a <- it_deref v it ;;
        if p a then
          '(v', c', r) <- it_erase v c it ;;
          match r with
          | inl it' => it'' <- set it it' ;; erase_loop set p fuel' v' c' it''
          | inr e => Ret (v', c', Some e)
          end
        else it' <- it_next v it ;; erase_loop set p fuel' v c it'
    end.

  (** PointerIterator.tcc:68-73 --it *)
  Definition it_prev (v : ivec) (it : viter) : outcome viter :=
    it_use v it (if voff it =? 0 then UB OutOfBounds else Ret (mkVI (vblock it) (voff it - 1))).

  (** The loop  for (auto& x : v) x = f(x);  (a program, not code of the library) *)
  Fixpoint change_loop (f : A -> A) (fuel : nat) (v : ivec) (it last : viter) : outcome ivec :=
    match fuel with
    | O => Diverge
    | S fuel' =>
        stop <- it_eq v it last ;;
        if stop : bool then Ret v else
        a <- it_deref v it ;;
        v' <- it_store v it (f a) ;;
        it' <- it_next v' it ;;
        change_loop f fuel' v' it' last
    end.

  (** A program with one vector and any number of iterators (not code): the calls of VecIterSpec.v *)
  Record istate : Type := mkIS { st_v : ivec; st_c : nat; st_its : list viter }.
  (** The iterator in a variable (not code) *)
  Definition get_it (s : istate) (j : nat) : outcome viter :=
    match nth_error (st_its s) j with Some it => Ret it | None => UB DeadObject end.
  (** a further variable (not code) *)
  Definition new_it (s : istate) (it : viter) : istate := mkIS (st_v s) (st_c s) (st_its s ++ [it]).
  (** variable [j] has changed (not code) *)
  Definition set_it (s : istate) (j : nat) (it : viter) : istate := mkIS (st_v s) (st_c s) (set_nth (st_its s) j it).
  (** after a call that answers an iterator or throws (not code) *)
  Definition after_it (s : istate) (r : ivec * nat * (viter + exn)) : istate * ianswer A :=
    match r with
    | (v, c, inl it) => (mkIS v c (st_its s ++ [it]), IUnit)
    | (v, c, inr e) => (mkIS v c (st_its s), IThrow e)
    end.
  (** after another call that may reallocate (not code) *)
  Definition after (s : istate) (r : res) : istate * ianswer A :=
    match settle (st_v s) (st_c s) r 0 with
    | (v, c, inl _) => (mkIS v c (st_its s), IUnit)
    | (v, c, inr e) => (mkIS v c (st_its s), IThrow e)
    end.

  (** One call *)
  Definition istep (s : istate) (o : iop A) : outcome (istate * ianswer A) :=
    let v := st_v s in
    let c := st_c s in
    match o with
    | IBegin => Ret (new_it s (it_begin v), IUnit)
    | IEnd => Ret (new_it s (it_end v), IUnit)
    | ICopy j => it <- get_it s j ;; Ret (new_it s it, IUnit)
    | INext j => it <- get_it s j ;; it' <- it_next v it ;; Ret (set_it s j it', IUnit)
    | IPrev j => it <- get_it s j ;; it' <- it_prev v it ;; Ret (set_it s j it', IUnit)
    | IGet j => it <- get_it s j ;; a <- it_deref v it ;; Ret (s, IVal a)
    | ISet j a => it <- get_it s j ;; v' <- it_store v it a ;; Ret (mkIS v' c (st_its s), IUnit)
    | IEq j j' => it <- get_it s j ;; it' <- get_it s j' ;; b <- it_eq v it it' ;; Ret (s, IBool b)
    | IIndex j => it <- get_it s j ;; k <- it_index v it ;; Ret (s, INum k)
    | IInsert j n a => it <- get_it s j ;; r <- it_insert v c it n (Val a) ;; Ret (after_it s r)
    | IInsertList j l => it <- get_it s j ;; r <- it_insert_list v c it l ;; Ret (after_it s r)
    | IErase j => it <- get_it s j ;; r <- it_erase v c it ;; Ret (after_it s r)
    | IEraseRange j j' => it <- get_it s j ;; it' <- get_it s j' ;; r <- it_erase_range v c it it' ;; Ret (after_it s r)
    | IPush a => r <- push_back esz realloc_ok (iv v) c (Val a) ;; Ret (after s r)
    | IPop => '(v', a) <- pop_back (iv v) ;; Ret (mkIS (mkIV v' (iblock v)) c (st_its s), IVal a)
    | IResize n => r <- resize dflt esz realloc_ok (iv v) c n ;; Ret (after s r)
    | IReserve n => r <- reserve esz realloc_ok (iv v) c n ;; Ret (after s r)
    | IClear => v' <- vclear (iv v) ;; Ret (mkIS (mkIV v' (S (iblock v))) c (st_its s), IUnit)
    end.
  (** one after the other (not code) *)
  Fixpoint irun (s : istate) (l : list (iop A)) : outcome (istate * list (ianswer A)) :=
    match l with
    | [] => Ret (s, [])
    | o :: l' => '(s', a) <- istep s o ;; '(s'', as_) <- irun s' l' ;; Ret (s'', a :: as_)
    end.
  (** Vector.tcc:8-11, no iterators *)
  Definition istart : istate := mkIS (mkIV (mkV Null 0 0) 0) 0 [].
End Model.
Arguments istate A : clear implicits.
