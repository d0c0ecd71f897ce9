(** Model of the C functions of an operation on the memory of ValueModel.v: ENI_GAS and ENI_RUN (/repo/include/eni/eni.h:17-33),
    getGas, start and check (eni.h:50-75), Vector::emplace_back (/repo/include/eni/adt/bits/Vector.tcc:241-247).

    The functor and the data members of the derived class are not counted as storage, nor is the block returned to the
    caller.  An exception leaves the C function and ends the program. *)
From Verif Require Import Base JsonModel ValueSpec EniHeapSpec ValueModel JsonHeapModel EniHeapSpec.
From Coq Require Import List NArith ZArith Bool Arith.
Import ListNotations.

(** the constructors of Value run() calls; Value.h:22-37 *)
Definition ret_ctor (r : retval) : ctor :=
  match r with RetBool b => CBool b | RetInt z => CInt z | RetStr s => CStr s end.

(** Vector.tcc:241-247 on the array of variable [x]: room for one more, a Value made with new, and its assignment.
    Nothing deletes the new Value; it is a block of one Value here. *)
Definition emplace_back (st : state) (x : nat) (c : ctor) : outcome state :=
  let (h, v) := construct (s_mem st) c in
  let src := length h in
  let h := h ++ [Heap (BArr [v])] in
  w <- load h (0, At x) ;;
  '(a, b) <- deref h (v_hold w) ;;
  match b with
  | BArr vs =>
      h' <- assign (set_block h a (BArr (vs ++ [mkV KUndef HGarbage]))) (a, At (length vs)) (src, At 0) ;;
      Ret (mkS (s_alive st) h')
  | _ => UB TypeConfusion
  end.
(** the elements in order; not code of the library *)
Fixpoint emplace_all (st : state) (x : nat) (l : list retval) : outcome state :=
  match l with
  | [] => Ret st
  | r :: l' => st' <- emplace_back st x (ret_ctor r) ;; emplace_all st' x l'
  end.

(** Value.cpp:124-161, Array.cpp:27-36 print walks through the value; the text is that of JsonModel.v for the same content.
    run() makes no objects, so the order of members does not matter. *)
Fixpoint value_of (t : tree) : jvalue :=
  match t with
  | TUndef => JUndef
  | TBool b => JBool b
  | TInt z => JInt z
  | TStr s => JStr s
  | TArr l => JArr (map value_of l)
  | TObj _ => new_object
  end.

(** Value.h:48, 54 asArray and toArray: nothing looks at the type *)
Definition array_of (st : state) (x : nat) : outcome (list tree) :=
  t <- content st x ;; match t with TArr l => Ret l | _ => UB TypeConfusion end.

Section Call.
  Variable c : hclass.
  (** eni.h:85-86 and the data members of the derived class *)
  Record fields : Type := mkF { f_parsed : bool; f_success : bool; f_op : h_st c }.

  (** eni.h:69-75 *)
  Definition check (st : state) (f : fields) : outcome (fields * bool) :=
    if f_parsed f then Ret (f, f_success f) else
    args <- array_of st v_args ;;
    let (s, r) := h_parse c (f_op f) args in
    b <- r ;; Ret (mkF true b s, b).
  (** eni.h:50-54 *)
  Definition get_gas (st : state) (f : fields) : outcome (fields * answer) :=
    '(f, ok) <- check st f ;;
    if ok then g <- h_gas c (f_op f) ;; Ret (f, Gas g) else Ret (f, Gas 1500).
  (** eni.h:56-66 *)
  Definition start (st : state) (f : fields) : outcome (state * fields * answer) :=
    '(f, ok) <- check st f ;;
    if ok then
      _ <- array_of st v_rets ;;
      let '(s, out, r) := h_run c (f_op f) in
      st <- emplace_all st v_rets out ;;
      ok <- r ;;
      let f := mkF (f_parsed f) (f_success f) s in
      if ok then t <- content st v_rets ;; text <- print (value_of t) ;; Ret (st, f, Text (cstr text))
      else Ret (st, f, Nothing)
    else Ret (st, f, Nothing).

  Variable grows : nat -> bool.
  Variable lay : layout.

  (** eni.h:17-25 *)
  Definition call_gas (buf : bytes) (st : state) : outcome (state * answer) :=
    st <- base_make grows lay (cstr buf) st ;;
    '(_, a) <- get_gas st (mkF false false (h_init c)) ;;
    st <- base_drop st ;;
    Ret (st, a).
  (** eni.h:27-33 *)
  Definition call_run (buf : bytes) (st : state) : outcome (state * answer) :=
    st <- base_make grows lay (cstr buf) st ;;
    '(st, _, a) <- start st (mkF false false (h_init c)) ;;
    st <- base_drop st ;;
    Ret (st, a).
End Call.

(** a caller: eni.h:17-33 either function; not code of the library *)
Definition do_call (k : call) (st : state) : outcome (state * answer) :=
  (if k_gas k then call_gas else call_run) (k_class k) (k_grows k) (k_lay k) (k_buf k) st.
(** not code: the calls in order *)
Fixpoint do_calls (l : list call) (st : state) : outcome (state * list answer) :=
  match l with
  | [] => Ret (st, [])
  | k :: l' => '(st, a) <- do_call k st ;; '(st, as_) <- do_calls l' st ;; Ret (st, a :: as_)
  end.
