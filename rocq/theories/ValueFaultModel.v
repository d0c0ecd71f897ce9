(** Model of json::Value when memory may run out: the operations of ValueModel.v, every request for memory in its
    place.  Whether request number [c] is granted is up to the oracle [alloc].

    operator new throws std::bad_alloc; Vector::reserve throws BadAlloc<NoMemory>, which is a std::bad_alloc
    (Exception.h:108); calloc and malloc elsewhere are not checked.

    Simplified: a std::string and its characters are one request, the strings a hash table makes to compare keys are
    none; every push_back and resize asks for room and every new member and erase for a rehash, also where the container
    has room (an oracle that grants the request covers that). *)
From Verif Require Import Base ValueSpec ValueModel ValueFaultSpec.
From Coq Require Import List NArith ZArith Bool Arith.
Import ListNotations.

(** the result of something that may throw std::bad_alloc  (not code) *)
Inductive attempt (A : Type) : Type := Got (a : A) | Failed.
Arguments Got {A}. Arguments Failed {A}.

Section Faults.
  Variable alloc : nat -> bool.

  (** new T(...): Value.cpp:49, 54, 59, 64, 69, 74 *)
  Definition make (h : heap) (c : nat) (b : block) : heap * nat * attempt (option holder) :=
    if alloc c then (h ++ [Heap b], S c, Got (Some (HPtr (length h)))) else (h, S c, Failed).

  Section CopyList.
    Variable copy : heap -> nat -> val -> outcome (heap * nat * attempt (option holder)).
    (** Vector.tcc:37 (elements of an array); HashTable.tcc:24-33 (members of an object, [entry = true]): each entry is
        asked for with malloc and written to.  What was copied before an exception is lost. *)
    Fixpoint copy_list_a (entry : bool) (h : heap) (c : nat) (vs : list val) : outcome (heap * nat * attempt (list val)) :=
      match vs with
      | [] => Ret (h, c, Got [])
      | v :: vs' =>
          if entry && negb (alloc c) then UB NullDeref else
          '(h1, c1, r) <- copy h (if entry then S c else c) v ;;
          match r with
          | Failed => Ret (h1, c1, Failed)
          | Got o =>
              '(h2, c2, r2) <- copy_list_a entry h1 c1 vs' ;;
              match r2 with
              | Failed => Ret (h2, c2, Failed)
              | Got vs2 => Ret (h2, c2, Got (mkV (v_kind v) (held o HNull) :: vs2))
              end
          end
      end.
  End CopyList.
  (** Value.cpp:19-40, 172-190.  new Array: the object, then Vector.tcc:36 calloc, unchecked; new Object: the object,
      then HashBase.tcc:66-67 malloc, unchecked, and memcpy *)
  Fixpoint copy_a (fuel : nat) (h : heap) (c : nat) (v : val) : outcome (heap * nat * attempt (option holder)) :=
    match fuel with
    | O => Diverge
    | S f =>
        match v_kind v with
        | KUndef => Ret (h, c, Got None)
        | KBool => match v_hold v with HBool b => Ret (h, c, Got (Some (HBool b))) | HGarbage => UB Uninitialised | _ => UB TypeConfusion end
        | KInt =>
            if negb (alloc c) then Ret (h, S c, Failed) else
            '(_, b) <- deref h (v_hold v) ;;
            match b with BInt z => Ret (h ++ [Heap (BInt z)], S c, Got (Some (HPtr (length h)))) | _ => UB TypeConfusion end
        | KStr =>
            if negb (alloc c) then Ret (h, S c, Failed) else
            '(_, b) <- deref h (v_hold v) ;;
            match b with BStr s => Ret (h ++ [Heap (BStr s)], S c, Got (Some (HPtr (length h)))) | _ => UB TypeConfusion end
        | KArr =>
            if negb (alloc c) then Ret (h, S c, Failed) else
            '(_, b) <- deref h (v_hold v) ;;
            match b with
            | BArr vs =>
                if negb (alloc (S c)) && negb (length vs =? 0)%nat then UB NullDeref else
                '(h', c', r) <- copy_list_a (copy_a f) false h (S (S c)) vs ;;
                match r with
                | Failed => Ret (h', c', Failed)
                | Got vs' => Ret (h' ++ [Heap (BArr vs')], c', Got (Some (HPtr (length h'))))
                end
            | _ => UB TypeConfusion
            end
        | KObj =>
            if negb (alloc c) then Ret (h, S c, Failed) else
            '(_, b) <- deref h (v_hold v) ;;
            match b with
            | BObj ms =>
                if negb (alloc (S c)) then UB NullDeref else
                '(h', c', r) <- copy_list_a (copy_a f) true h (S (S c)) (map snd ms) ;;
                match r with
                | Failed => Ret (h', c', Failed)
                | Got vs' => Ret (h' ++ [Heap (BObj (combine (map fst ms) vs'))], c', Got (Some (HPtr (length h'))))
                end
            | _ => UB TypeConfusion
            end
        end
    end.

  (** Value.h:26-34, Value.cpp:47-75.  Value(Array()): the temporary has no storage; new Array, and a calloc of nothing.
      Value(Object()): the temporary asks for its buckets (HashBase.tcc:136, unchecked), then new Object, then a copy of the
      buckets (HashBase.tcc:66-67, unchecked); if new throws, the temporary goes without being looked at *)
  Definition construct_a (h : heap) (c : nat) (k : ctor) : outcome (heap * nat * attempt val) :=
    let made kd r := let '(h', c', a) := r in Ret (h', c', match a with Got o => Got (mkV kd (held o HNull)) | Failed => Failed end) in
    match k with
    | CUndef => Ret (h, c, Got (mkV KUndef HNull))
    | CBool b => Ret (h, c, Got (mkV KBool (HBool b)))
    | CInt z => made KInt (make h c (BInt z))
    | CStr s => made KStr (make h c (BStr s))
    | CArr => made KArr (let '(h', c', a) := make h c (BArr []) in (h', match a with Got _ => S c' | Failed => c' end, a))
    | CObj =>
        if alloc (S c) && (negb (alloc c) || negb (alloc (S (S c)))) then UB NullDeref
        else made KObj (let '(h', c', a) := make h (S c) (BObj []) in (h', match a with Got _ => S c' | Failed => c' end, a))
    end.
  (** Value.cpp:19-40: an exception, and there is no value *)
  Definition copy_construct_a (h : heap) (c : nat) (v : val) : outcome (heap * nat * attempt val) :=
    '(h', c', r) <- copy_a (fuel_of h) h c v ;;
    Ret (h', c', match r with Got o => Got (mkV (v_kind v) (held o HNull)) | Failed => Failed end).
  (** Value.cpp:169-192: the type is set before the copy is made, and stays set.  [true]: an exception *)
  Definition assign_a (h : heap) (c : nat) (l src : loc) : outcome (heap * nat * bool) :=
    q <- load h src ;;
    v <- load h l ;;
    h1 <- store h l (mkV (v_kind q) (v_hold v)) ;;
    q1 <- load h1 src ;;
    '(h2, c2, r) <- copy_a (fuel_of h1) h1 c (mkV (v_kind q) (v_hold q1)) ;;
    match r with
    | Got o => h3 <- store h2 l (mkV (v_kind q) (held o (v_hold v))) ;; Ret (h3, c2, false)
    | Failed => Ret (h2, c2, true)
    end.

  (** The life of a variable, if its constructor returns  (not code) *)
  Definition begin_a (alive : list bool) (x : nat) (r : heap * nat * attempt val) : outcome (state * nat * bool) :=
    let '(h, c, a) := r in
    match a with
    | Got v => s <- begin_var alive h x v ;; Ret (s, c, false)
    | Failed => Ret (mkS alive h, c, true)
    end.

  (** ValueModel.step_op, with the requests.  [true]: std::bad_alloc *)
  Definition step_a (s : state) (c : nat) (o : op) : outcome (state * nat * bool) :=
    let h := s_mem s in
    let ret r := let '(h', c', b) := r in Ret (mkS (s_alive s) h', c', b) in
    let same := Ret (s, S c, true) in
    match o with
    | New x k => r <- construct_a h c k ;; begin_a (s_alive s) x r
    | Copy x p =>
        l <- find_place s p ;; v <- load h l ;; r <- copy_construct_a h c v ;; begin_a (s_alive s) x r
    | Assign p q =>
        src <- find_place s q ;; l <- find_place s p ;; r <- assign_a h c l src ;; ret r
    | SetStr p t =>                                  (* std::string::operator= changes nothing if it throws *)
        s' <- step_op s o ;; if alloc c then Ret (s', S c, false) else same
    | Push p q =>                                    (* Vector.tcc:228-233: reserve, then the size, then the assignment *)
        src <- find_place s q ;; l <- find_place s p ;; v <- load h l ;; '(a, b) <- deref h (v_hold v) ;;
        match b with
        | BArr vs =>
            if negb (alloc c) then same
            else if (fst src =? a)%nat then UB DeadObject
            else r <- assign_a (set_block h a (BArr (vs ++ [mkV KUndef HGarbage]))) (S c) (a, At (length vs)) src ;; ret r
        | _ => UB TypeConfusion
        end
    | Pop x p =>                                     (* Vector.tcc:235-239: the size, then the copy *)
        l <- find_place s p ;; v <- load h l ;; '(a, b) <- deref h (v_hold v) ;;
        match b with
        | BArr vs =>
            match rev vs with
            | w :: r => r' <- copy_construct_a (set_block h a (BArr (rev r))) c w ;; begin_a (s_alive s) x r'
            | [] => UB OutOfBounds
            end
        | _ => UB TypeConfusion
        end
    | Resize p n =>                                  (* Vector.tcc:110-116: reserve first *)
        s' <- step_op s o ;; if alloc c then Ret (s', S c, false) else same
    | Put p k q =>                                   (* HashTable.tcc:116-140: an entry (malloc, unchecked), then
                                                        HashBase.tcc:251 (calloc, unchecked); then the assignment *)
        src <- find_place s q ;; l <- find_place s p ;; v <- load h l ;; '(a, b) <- deref h (v_hold v) ;;
        match b with
        | BObj ms =>
            match assoc k ms with
            | Some _ => r <- assign_a h c (a, Member k) src ;; ret r
            | None =>
                if negb (alloc c) || negb (alloc (S c)) then UB NullDeref
                else r <- assign_a (set_block h a (BObj (ms ++ [(k, mkV KUndef HNull)]))) (S (S c)) (a, Member k) src ;; ret r
            end
        | _ => UB TypeConfusion
        end
    | Erase p k =>                                   (* HashTable.tcc:144-162, HashBase.tcc:251 *)
        l <- find_place s p ;; v <- load h l ;; '(a, b) <- deref h (v_hold v) ;;
        match b with
        | BObj ms =>
            match assoc k ms with
            | Some w => h' <- destroy (fuel_of h) h w ;; if alloc c then ret (set_block h' a (BObj (assoc_del k ms)), S c, false) else UB NullDeref
            | None => ret (h, c, false)
            end
        | _ => UB TypeConfusion
        end
    | Move _ _ | Destroy _ | SetInt _ _ | Clear _ | Delegate _ _ => s' <- step_op s o ;; Ret (s', c, false)
    end.

  (** the first [n] operations of a program; exceptions are caught after each  (not code) *)
  Fixpoint run_a (next : program) (n : nat) (s : state) (c : nat) (evs : list event) : outcome (state * nat * list event) :=
    match n with
    | O => Ret (s, c, evs)
    | S n' =>
        match next evs with
        | None => Ret (s, c, evs)
        | Some o =>
            match step_a s c o with
            | Ret (s', c', b) => run_a next n' s' c' (evs ++ [if b then NoMemory else Done])
            | Throw x => run_a next n' s c (evs ++ [Thrown x])
            | UB u => UB u
            | Diverge => Diverge
            | Exit k => Exit k
            end
        end
    end.
End Faults.
