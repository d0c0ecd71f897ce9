(** Model of the memory behind json::Value: /repo/include/eni/json/Value.h, /repo/lib/json/Value.cpp, and
    Notation.cpp, Array.cpp, Object.cpp as far as they copy and destroy values.

    The vector inside an Array and the hash table inside an Object are lists here (they are modelled in
    VectorModel.v, HashModel.v and StringMapModel.v); keys are shorter than 65536 bytes.  Allocation succeeds. *)
From Verif Require Import Base ValueSpec.
From Coq Require Import List NArith ZArith Bool Arith.
Import ListNotations.

(** Value.h:64-79 union Holder.  [HGarbage]: storage of a vector that no value was written to *)
Inductive holder : Type := HNull | HBool (b : bool) | HPtr (a : nat) | HGarbage.
(** Value.h:23-83 class Value, Notation.h:44 m_Type *)
Record val : Type := mkV { v_kind : kind; v_hold : holder }.

(** s256, std::string, Array, Object: what Holder points to, Value.h:67-71 *)
Inductive block : Type := BInt (z : Z) | BStr (s : bytes) | BArr (vs : list val) | BObj (ms : list (bytes * val)).
(** made with new; an object of the program; freed  (the memory, not code) *)
Inductive cell : Type := Heap (b : block) | Auto (b : block) | Dead.
(** The memory (not code) *)
Definition heap : Type := list cell.

(** Cell 0 holds the variables of type Value of the program.  (Not code.) *)
Record state : Type := mkS { s_alive : list bool; s_mem : heap }.

(** a reference to a Value: an element of an array or a member of an object:
    what asArray(), asObject() and Vector.tcc:160-188, StringMap.h:58-76 give *)
Definition loc : Type := (nat * step)%type.

(** The object at an address (the machine, not code) *)
Definition live (h : heap) (a : nat) : outcome block :=
  match nth_error h a with
  | Some (Heap b) | Some (Auto b) => Ret b
  | _ => UB DeadObject
  end.
(** The object at [a] afterwards (the machine, not code) *)
Definition set_block (h : heap) (a : nat) (b : block) : heap :=
  match nth_error h a with
  | Some (Heap _) => set_nth a (Heap b) h
  | Some (Auto _) => set_nth a (Auto b) h
  | _ => h
  end.
(** following the pointer of a Holder; nothing looks at the type: Value.h:45-54 *)
Definition deref (h : heap) (p : holder) : outcome (nat * block) :=
  match p with
  | HNull => UB NullDeref
  | HBool _ => UB TypeConfusion
  | HGarbage => UB Uninitialised
  | HPtr a => b <- live h a ;; Ret (a, b)
  end.

(** An element or a member: Vector.tcc:163, 169; StringMap.h:58-70 *)
Definition slot (b : block) (s : step) : option val :=
  match b, s with
  | BArr vs, At n => nth_error vs n
  | BObj ms, Member k => assoc k ms
  | _, _ => None
  end.
(** That element or member afterwards *)
Definition set_slot (b : block) (s : step) (v : val) : block :=
  match b, s with
  | BArr vs, At n => BArr (set_nth n v vs)
  | BObj ms, Member k => BObj (assoc_set k v ms)
  | _, _ => b
  end.
(** Reading a Value through a reference (the machine, not code) *)
Definition load (h : heap) (l : loc) : outcome val :=
  b <- live h (fst l) ;;
  match slot b (snd l) with Some v => Ret v | None => UB DeadObject end.
(** Writing one (the machine, not code) *)
Definition store (h : heap) (l : loc) (v : val) : outcome heap :=
  b <- live h (fst l) ;;
  match slot b (snd l) with Some _ => Ret (set_block h (fst l) (set_slot b (snd l) v)) | None => UB DeadObject end.

(** Value.h:47-48 asObject, asArray with Vector.tcc:172-188 at, StringMap.h:58-63 at *)
Definition enter (h : heap) (v : val) (s : step) : outcome loc :=
  '(a, b) <- deref h (v_hold v) ;;
  match b, s with
  | BArr vs, At n => if (n <? length vs)%nat then Ret (a, s) else Throw OutOfRangeVector
  | BObj ms, Member k => match assoc k ms with Some _ => Ret (a, s) | None => Throw OutOfRangeKey end
  | _, _ => UB TypeConfusion
  end.
(** A chain of asArray().at(n) and asObject().at(k), one after the other: Value.h:47-48 *)
Fixpoint locate (h : heap) (l : loc) (p : list step) : outcome loc :=
  match p with
  | [] => Ret l
  | s :: p' => v <- load h l ;; l' <- enter h v s ;; locate h l' p'
  end.

(** Value.cpp:19-40 the switch of the copy constructor and of operator= (172-190): the new content of the Holder,
    [None] if it is left alone.  Array.cpp:16-18, Vector.tcc:33-38: the elements are assigned one by one to
    zeroed storage; Object.cpp:15-17, HashTable.tcc:15-34: the entries are made anew and assigned. *)
Definition held (o : option holder) (old : holder) : holder := match o with Some p => p | None => old end.
Section CopyList.
  Variable copy : heap -> val -> outcome (heap * option holder).
  (** Vector.tcc:37 (elements of an array), HashTable.tcc:24-33 (members of an object) *)
  Fixpoint copy_list (h : heap) (vs : list val) : outcome (heap * list val) :=
    match vs with
    | [] => Ret (h, [])
    | v :: vs' =>
        '(h1, o) <- copy h v ;;
        '(h2, vs2) <- copy_list h1 vs' ;;
        Ret (h2, mkV (v_kind v) (held o HNull) :: vs2)
    end.
End CopyList.
(** Value.cpp:19-40, 172-190 *)
Fixpoint copy (fuel : nat) (h : heap) (v : val) : outcome (heap * option holder) :=
  match fuel with
  | O => Diverge
  | S f =>
      match v_kind v with
      | KUndef => Ret (h, None)
      | KBool => match v_hold v with HBool b => Ret (h, Some (HBool b)) | HGarbage => UB Uninitialised | _ => UB TypeConfusion end
      | KInt =>
          '(_, b) <- deref h (v_hold v) ;;
          match b with BInt z => Ret (h ++ [Heap (BInt z)], Some (HPtr (length h))) | _ => UB TypeConfusion end
      | KStr =>
          '(_, b) <- deref h (v_hold v) ;;
          match b with BStr s => Ret (h ++ [Heap (BStr s)], Some (HPtr (length h))) | _ => UB TypeConfusion end
      | KArr =>
          '(_, b) <- deref h (v_hold v) ;;
          match b with
          | BArr vs => '(h', vs') <- copy_list (copy f) h vs ;; Ret (h' ++ [Heap (BArr vs')], Some (HPtr (length h')))
          | _ => UB TypeConfusion
          end
      | KObj =>
          '(_, b) <- deref h (v_hold v) ;;
          match b with
          | BObj ms =>
              '(h', vs') <- copy_list (copy f) h (map snd ms) ;;
              Ret (h' ++ [Heap (BObj (combine (map fst ms) vs'))], Some (HPtr (length h')))
          | _ => UB TypeConfusion
          end
      end
  end.
(** as deep as the memory is large: deeper only on a cycle  (not code) *)
Definition fuel_of (h : heap) : nat := S (length h).

(** delete: Value.cpp:81, 84, 87 *)
Definition release (h : heap) (a : nat) : outcome heap :=
  match nth_error h a with
  | Some (Heap _) => Ret (set_nth a Dead h)
  | Some (Auto _) => UB WrongDealloc
  | _ => UB DeadObject
  end.
(** Value.cpp:77-94 ~Value.  ~Vector (Vector.tcc:47-51, 360-369) frees the storage without destroying the elements;
    HashTable.tcc:88-107 destroys every entry; an s256 is not deleted. *)
Section DestroyList.
  Variable destroy : heap -> val -> outcome heap.
  (** HashTable.tcc:96-104 *)
  Fixpoint destroy_list (h : heap) (vs : list val) : outcome heap :=
    match vs with
    | [] => Ret h
    | v :: vs' => h' <- destroy h v ;; destroy_list h' vs'
    end.
End DestroyList.
(** Value.cpp:77-94 *)
Fixpoint destroy (fuel : nat) (h : heap) (v : val) : outcome heap :=
  match fuel with
  | O => Diverge
  | S f =>
      match v_kind v, v_hold v with
      | KStr, HNull | KArr, HNull | KObj, HNull => Ret h
      | KStr, p => '(a, b) <- deref h p ;; match b with BStr _ => release h a | _ => UB TypeConfusion end
      | KArr, p => '(a, b) <- deref h p ;; match b with BArr _ => release h a | _ => UB TypeConfusion end
      | KObj, p => '(a, b) <- deref h p ;; match b with BObj ms => h' <- destroy_list (destroy f) h (map snd ms) ;; release h' a | _ => UB TypeConfusion end
      | _, _ => Ret h
      end
  end.

(** Value.h:26-34 and Value.cpp:47-75 the other constructors; Value(Array()), Value(Object()) copy an empty temporary *)
Definition construct (h : heap) (c : ctor) : heap * val :=
  match c with
  | CUndef => (h, mkV KUndef HNull)
  | CBool b => (h, mkV KBool (HBool b))
  | CInt z => (h ++ [Heap (BInt z)], mkV KInt (HPtr (length h)))
  | CStr s => (h ++ [Heap (BStr s)], mkV KStr (HPtr (length h)))
  | CArr => (h ++ [Heap (BArr [])], mkV KArr (HPtr (length h)))
  | CObj => (h ++ [Heap (BObj [])], mkV KObj (HPtr (length h)))
  end.
(** Value.cpp:19-40 copy constructor *)
Definition copy_construct (h : heap) (v : val) : outcome (heap * val) :=
  '(h', o) <- copy (fuel_of h) h v ;; Ret (h', mkV (v_kind v) (held o HNull)).
(** Value.cpp:169-192 operator=: first the type (Notation.cpp:29-33), then the content *)
Definition assign (h : heap) (l src : loc) : outcome heap :=
  q <- load h src ;;
  v <- load h l ;;
  h1 <- store h l (mkV (v_kind q) (v_hold v)) ;;
  q1 <- load h1 src ;;
  '(h2, o) <- copy (fuel_of h1) h1 (mkV (v_kind q) (v_hold q1)) ;;
  store h2 l (mkV (v_kind q) (held o (v_hold v))).

(** a place of the program; a variable that is not alive is no object  (not code) *)
Definition find_place (s : state) (p : place) : outcome loc :=
  if is_alive (s_alive s) (fst p) then locate (s_mem s) (0, At (fst p)) (snd p) else UB DeadObject.
(** the life of a variable; only of one that is not alive  (not code) *)
Definition begin_var (alive : list bool) (h : heap) (x : nat) (v : val) : outcome state :=
  match nth_error alive x with
  | Some false => h' <- store h (0, At x) v ;; Ret (mkS (set_nth x true alive) h')
  | _ => UB DeadObject
  end.

(** One operation of a program: the functions above; asInteger() and asString() assigned to are
    Value.h:45-46 *)
Definition step_op (s : state) (o : op) : outcome state :=
  let h := s_mem s in
  let ret h' := Ret (mkS (s_alive s) h') in
  match o with
  | New x c => let (h', v) := construct h c in begin_var (s_alive s) h' x v
  | Copy x p =>
      l <- find_place s p ;; v <- load h l ;;
      '(h', w) <- copy_construct h v ;; begin_var (s_alive s) h' x w
  | Move x p =>                                    (* Value.cpp:42-45, Notation.cpp:23-27 *)
      l <- find_place s p ;; v <- load h l ;;
      h' <- store h l (mkV KUndef (v_hold v)) ;; begin_var (s_alive s) h' x v
  | Assign p q =>
      src <- find_place s q ;; l <- find_place s p ;; h' <- assign h l src ;; ret h'
  | Destroy x =>
      l <- find_place s (x, []) ;; v <- load h l ;;
      h' <- destroy (fuel_of h) h v ;;
      h'' <- store h' l (mkV KUndef HNull) ;;      (* 92-93 *)
      Ret (mkS (set_nth x false (s_alive s)) h'')
  | SetInt p z =>
      l <- find_place s p ;; v <- load h l ;; '(a, b) <- deref h (v_hold v) ;;
      match b with BInt _ => ret (set_block h a (BInt z)) | _ => UB TypeConfusion end
  | SetStr p t =>
      l <- find_place s p ;; v <- load h l ;; '(a, b) <- deref h (v_hold v) ;;
      match b with BStr _ => ret (set_block h a (BStr t)) | _ => UB TypeConfusion end
  | Push p q =>                                    (* Vector.tcc:228-233, 130-152: growing frees the old storage.
                                                      Simplified: a reference into the array is taken as dead
                                                      even if room is left by an earlier pop_back *)
      src <- find_place s q ;; l <- find_place s p ;; v <- load h l ;; '(a, b) <- deref h (v_hold v) ;;
      match b with
      | BArr vs =>
          if (fst src =? a)%nat then UB DeadObject
          else h' <- assign (set_block h a (BArr (vs ++ [mkV KUndef HGarbage]))) (a, At (length vs)) src ;; ret h'
      | _ => UB TypeConfusion
      end
  | Pop x p =>                                     (* Vector.tcc:235-239 *)
      l <- find_place s p ;; v <- load h l ;; '(a, b) <- deref h (v_hold v) ;;
      match b with
      | BArr vs =>
          match rev vs with
          | w :: r => '(h', w') <- copy_construct (set_block h a (BArr (rev r))) w ;; begin_var (s_alive s) h' x w'
          | [] => UB OutOfBounds
          end
      | _ => UB TypeConfusion
      end
  | Resize p n =>                                  (* Vector.tcc:103-116 *)
      l <- find_place s p ;; v <- load h l ;; '(a, b) <- deref h (v_hold v) ;;
      match b with
      | BArr vs => ret (set_block h a (BArr (firstn n vs ++ repeat (mkV KUndef HGarbage) (n - length vs))))
      | _ => UB TypeConfusion
      end
  | Clear p =>                                     (* Vector.tcc:360-369 *)
      l <- find_place s p ;; v <- load h l ;; '(a, b) <- deref h (v_hold v) ;;
      match b with BArr _ => ret (set_block h a (BArr [])) | _ => UB TypeConfusion end
  | Put p k q =>                                   (* StringMap.h:72-76; the right side first *)
      src <- find_place s q ;; l <- find_place s p ;; v <- load h l ;; '(a, b) <- deref h (v_hold v) ;;
      match b with
      | BObj ms =>
          let ms' := match assoc k ms with Some _ => ms | None => ms ++ [(k, mkV KUndef HNull)] end in
          h' <- assign (set_block h a (BObj ms')) (a, Member k) src ;; ret h'
      | _ => UB TypeConfusion
      end
  | Erase p k =>                                   (* HashTable.tcc:144-162 *)
      l <- find_place s p ;; v <- load h l ;; '(a, b) <- deref h (v_hold v) ;;
      match b with
      | BObj ms =>
          match assoc k ms with
          | Some w => h' <- destroy (fuel_of h) h w ;; ret (set_block h' a (BObj (assoc_del k ms)))
          | None => ret h
          end
      | _ => UB TypeConfusion
      end
  | Delegate p a =>                                (* Value.cpp:97-122; no overload takes a string *)
      l <- find_place s p ;; v <- load h l ;;
      match v_kind v with
      | KUndef =>
          b <- live h a ;;
          let k := match b with BInt _ => KInt | BStr _ => KStr | BArr _ => KArr | BObj _ => KObj end in
          h' <- store h l (mkV k (HPtr a)) ;; ret h'
      | _ => Throw LogicErrorDelegate
      end
  end.

(** Every operation throws before it changes anything.  (Not code.) *)
Fixpoint run (s : state) (l : list op) : outcome (state * list (option exn)) :=
  match l with
  | [] => Ret (s, [])
  | o :: l' =>
      match step_op s o with
      | Ret s' => '(s'', xs) <- run s' l' ;; Ret (s'', None :: xs)
      | Throw x => '(s'', xs) <- run s l' ;; Ret (s'', Some x :: xs)
      | UB u => UB u
      | Diverge => Diverge
      | Exit c => Exit c
      end
  end.

(** [n] variables, none alive, and objects of the program  (not code) *)
Definition state0 (n : nat) (objs : list block) : state :=
  mkS (repeat false n) (Auto (BArr (repeat (mkV KUndef HNull) n)) :: map Auto objs).

(** walking through a value: what toInteger, toString, at() and the iterators show *)
Section ReadList.
  Variable rd : val -> outcome tree.
  (** The elements, one after the other (an observation) *)
  Fixpoint read_list (vs : list val) : outcome (list tree) :=
    match vs with
    | [] => Ret []
    | v :: vs' => t <- rd v ;; ts <- read_list vs' ;; Ret (t :: ts)
    end.
End ReadList.
(** Value.h:50-54 (an observation) *)
Fixpoint read (fuel : nat) (h : heap) (v : val) : outcome tree :=
  match fuel with
  | O => Diverge
  | S f =>
      match v_kind v with
      | KUndef => Ret TUndef
      | KBool => match v_hold v with HBool b => Ret (TBool b) | HGarbage => UB Uninitialised | _ => UB TypeConfusion end
      | KInt => '(_, b) <- deref h (v_hold v) ;; match b with BInt z => Ret (TInt z) | _ => UB TypeConfusion end
      | KStr => '(_, b) <- deref h (v_hold v) ;; match b with BStr s => Ret (TStr s) | _ => UB TypeConfusion end
      | KArr =>
          '(_, b) <- deref h (v_hold v) ;;
          match b with BArr vs => ts <- read_list (read f h) vs ;; Ret (TArr ts) | _ => UB TypeConfusion end
      | KObj =>
          '(_, b) <- deref h (v_hold v) ;;
          match b with
          | BObj ms => ts <- read_list (read f h) (map snd ms) ;; Ret (TObj (combine (map fst ms) ts))
          | _ => UB TypeConfusion
          end
      end
  end.
(** What variable [x] shows (an observation) *)
Definition content (s : state) (x : nat) : outcome tree :=
  l <- find_place s (x, []) ;; v <- load (s_mem s) l ;; read (fuel_of (s_mem s)) (s_mem s) v.

(** the objects made with new and not deleted  (an observation) *)
Definition in_use (h : heap) : nat := length (filter (fun c => match c with Heap _ => true | _ => false end) h).
