(** Model of the C functions of an operation when memory may run out: EniHeapModel.v with the requests of ValueFaultModel.v
    and JsonOomModel.v.

    Simplified: what the virtual functions of the derived class ask for is not modelled, only the emplace_back calls of
    run(); a std::string is one request.  An exception that leaves start() leaves the functor behind: nothing deletes it. *)
From Verif Require Import Base JsonModel ValueSpec EniHeapSpec ValueModel ValueFaultModel JsonHeapModel JsonOomModel EniHeapModel.
From Coq Require Import List NArith ZArith Bool Arith.
From Coq.Init Require Import Byte.
Import ListNotations.

(** what the caller of a C function sees: its result, or an exception for want of memory *)
Inductive reply : Type := Answered (a : answer) | Refused.

Section Fault.
  Variable alloc : nat -> bool.

  (** Vector.tcc:241-247: reserve() throws if it gets no room, new throws, a constructor that throws has its memory given
      back, the assignment may throw.  [true]: an exception *)
  Definition emplace_back_a (st : state) (n : nat) (x : nat) (k : ctor) : outcome (state * nat * bool) :=
    if negb (alloc n) || negb (alloc (S n)) then Ret (st, S n, true) else
    '(h, n, r) <- construct_a alloc (s_mem st) (S (S n)) k ;;
    match r with
    | Failed => Ret (mkS (s_alive st) h, n, true)
    | Got v =>
        let src := length h in
        let h := h ++ [Heap (BArr [v])] in
        w <- load h (0, At x) ;;
        '(a, b) <- deref h (v_hold w) ;;
        match b with
        | BArr vs =>
            '(h', n, e) <- assign_a alloc (set_block h a (BArr (vs ++ [mkV KUndef HGarbage]))) n (a, At (length vs)) (src, At 0) ;;
            Ret (mkS (s_alive st) h', n, e)
        | _ => UB TypeConfusion
        end
    end.
  (** the elements in order, up to an exception; not code of the library *)
  Fixpoint emplace_all_a (st : state) (n : nat) (x : nat) (l : list retval) : outcome (state * nat * bool) :=
    match l with
    | [] => Ret (st, n, false)
    | r :: l' => '(st, n, e) <- emplace_back_a st n x (ret_ctor r) ;; if e then Ret (st, n, true) else emplace_all_a st n x l'
    end.

  (** ** std::ostringstream.  [full k]: there is no room for one more character after [k]; a refused request sets badbit, and
      the exception goes no further; nothing is written to a stream with badbit set *)
  Variable full : nat -> bool.
  Record ostr : Type := mkO { o_text : bytes; o_bad : bool; o_n : nat }.
  Definition put_char (o : ostr) (b : byte) : ostr :=
    if o_bad o then o
    else if full (length (o_text o)) then
      if alloc (o_n o) then mkO (o_text o ++ [b]) false (S (o_n o)) else mkO (o_text o) true (S (o_n o))
    else mkO (o_text o ++ [b]) false (o_n o).
  Definition put_text (o : ostr) (s : bytes) : ostr := fold_left put_char s o.

  (** Value.cpp:124-161, Array.cpp:27-36, on the value of EniHeapModel.v: what is written piece by piece.  An integer is made
      a std::string before anything is written, by boost, and that throws ([None]).  run() makes no objects. *)
  Inductive piece : Type := Chars (s : bytes) | Number (z : Z).
  Fixpoint listed (l : list (list piece)) : list piece :=
    match l with
    | [] => []
    | [x] => x
    | x :: l' => x ++ Chars [x2c] :: listed l'
    end.
  Fixpoint pieces (v : jvalue) : list piece :=
    match v with
    | JUndef => []
    | JInt z => [Number z]
    | JBool b => [Chars (if b then [x74; x72; x75; x65] else [x66; x61; x6c; x73; x65])]
    | JStr s => [Chars (x22 :: flat_map print_char s ++ [x22])]
    | JArr l => Chars [x5b] :: listed (map pieces l) ++ [Chars [x5d]]
    | JObj _ => []
    end.
  Definition put_piece (o : ostr) (p : piece) : option ostr :=
    match p with
    | Chars s => Some (put_text o s)
    | Number z => if alloc (o_n o) then Some (put_text (mkO (o_text o) (o_bad o) (S (o_n o))) (int_text z)) else None
    end.
  Fixpoint put_all (o : ostr) (l : list piece) : option ostr :=
    match l with
    | [] => Some o
    | p :: l' => match put_piece o p with Some o' => put_all o' l' | None => None end
    end.

  (** eni.h:63-65: the text, os.str(), which throws, and strdup, which gives the null pointer *)
  Definition text_a (n : nat) (v : jvalue) : nat * reply :=
    match put_all (mkO [] false n) (pieces v) with
    | None => (n, Refused)
    | Some o =>
        if negb (alloc (o_n o)) then (S (o_n o), Refused)
        else (S (S (o_n o)), Answered (if alloc (S (o_n o)) then Text (cstr (o_text o)) else Nothing))
    end.

  Variable c : hclass.
  (** eni.h:56-66 *)
  Definition start_a (st : state) (n : nat) (f : fields c) : outcome (state * nat * reply) :=
    '(f, ok) <- check c st f ;;
    if ok then
      _ <- array_of st v_rets ;;
      let '(s, out, r) := h_run c (f_op c f) in
      '(st, n, e) <- emplace_all_a st n v_rets out ;;
      if e then Ret (st, n, Refused) else
      ok <- r ;;
      if ok then t <- content st v_rets ;; let (n, a) := text_a n (value_of t) in Ret (st, n, a)
      else Ret (st, n, Answered Nothing)
    else Ret (st, n, Answered Nothing).

  Variable grows : nat -> bool.
  Variable lay : layout.

  (** eni.h:19, 29: the functor, its std::string argument, and the constructor; [None]: std::bad_alloc *)
  Definition make_a (buf : bytes) (st : state) (n : nat) : outcome (state * nat * bool) :=
    if negb (alloc n) || negb (alloc (S n)) then Ret (st, S n, false)
    else base_make_a alloc grows lay (cstr buf) st (S (S n)).
  (** eni.h:17-25; line 21 does not look at what malloc gives *)
  Definition call_gas_a (buf : bytes) (st : state) (n : nat) : outcome (state * nat * reply) :=
    '(st, n, made) <- make_a buf st n ;;
    if negb made then Ret (st, n, Refused) else
    '(_, a) <- get_gas c st (mkF c false false (h_init c)) ;;
    if negb (alloc n) then UB NullDeref else
    st <- base_drop st ;;
    Ret (st, S n, Answered a).
  (** eni.h:27-33; the functor of an exception stays *)
  Definition call_run_a (buf : bytes) (st : state) (n : nat) : outcome (state * nat * reply) :=
    '(st, n, made) <- make_a buf st n ;;
    if negb made then Ret (st, n, Refused) else
    '(st, n, a) <- start_a st n (mkF c false false (h_init c)) ;;
    match a with
    | Refused => Ret (st, n, Refused)
    | Answered _ => st <- base_drop st ;; Ret (st, n, a)
    end.
End Fault.

(** eni.h:17-33 either function *)
Definition do_call_a (alloc full : nat -> bool) (k : call) (st : state) (n : nat) : outcome (state * nat * reply) :=
  if k_gas k then call_gas_a alloc (k_class k) (k_grows k) (k_lay k) (k_buf k) st n
  else call_run_a alloc full (k_class k) (k_grows k) (k_lay k) (k_buf k) st n.

(** a call with the requests that are refused during it; not code of the library *)
Record attempt : Type := mkTry { t_call : call; t_alloc : nat -> bool; t_full : nat -> bool }.
(** The exception has left the function: of its variables none is left, and what the functor refers to is lost. *)
Definition forgotten (n : nat) (st : state) : state := mkS (repeat false n) (Auto (BArr (repeat (mkV KUndef HNull) n)) :: tl (s_mem st)).
(** eni.h:17-33 again and again, by a caller that catches the exceptions *)
Fixpoint do_calls_a (n : nat) (l : list attempt) (st : state) : outcome (state * list reply) :=
  match l with
  | [] => Ret (st, [])
  | t :: l' =>
      '(st, _, y) <- do_call_a (t_alloc t) (t_full t) (t_call t) st 0 ;;
      '(st, ys) <- do_calls_a n l' (match y with Answered _ => st | Refused => forgotten n st end) ;;
      Ret (st, y :: ys)
  end.
