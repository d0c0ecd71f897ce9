(** Model of json::Parser, json::Callbacks and the constructor of EniBase when memory may run out: JsonHeapModel.v with
    the requests of ValueFaultModel.v, and with the destructors that run while std::bad_alloc passes.

    Simplified: the characters of a string or number, however often their vector<char> grows, are one request, made when
    the callback is called, or when the error is thrown if there is one; a std::string is one request; as in
    ValueFaultModel.v a request is also made where there is room (an oracle that grants it covers that).  The
    parser catches ParserError only (Parser.h:47), so std::bad_alloc leaves the constructors. *)
From Verif Require Import Base JsonModel ValueSpec ValueModel ValueFaultModel JsonHeapModel.
From Coq Require Import List NArith ZArith Bool Arith.
Import ListNotations.

Section Fault.
  Variable alloc : nat -> bool.
  Variable grows : nat -> bool.

  (** the state of JsonHeapModel.v and the number of requests made  (not code) *)
  Record fstate : Type := mkFS { f_h : hstate; f_n : nat }.
  Local Open Scope cmd_scope.

  (** a request that throws if it is refused: operator new of std::string and std::vector (Callbacks.h:38, 46, 49, 86) *)
  Definition f_ask : cmd fstate unit :=
    fun c => (mkFS (f_h c) (S (f_n c)), if alloc (f_n c) then Ret tt else Throw StdBadAlloc).
  (** an operation on values, ValueFaultModel.step_a *)
  Definition f_do (o : op) : cmd fstate unit :=
    fun c => match step_a alloc (h_mem (f_h c)) (f_n c) o with
             | Ret (s, n, b) => (mkFS (with_mem (f_h c) s) n, if b then Throw StdBadAlloc else Ret tt)
             | Throw e => (c, Throw e) | UB u => (c, UB u) | Diverge => (c, Diverge) | Exit k => (c, Exit k)
             end.
  (** one after the other  (plumbing, not code) *)
  Fixpoint f_all (l : list op) : cmd fstate unit :=
    match l with
    | [] => cret tt
    | o :: l' => _ <- f_do o ;; f_all l'
    end.
  (** a change that asks for nothing  (plumbing, not code) *)
  Definition f_set (f : hstate -> outcome hstate) : cmd fstate unit :=
    fun c => match f (f_h c) with
             | Ret h => (mkFS h (f_n c), Ret tt)
             | Throw e => (c, Throw e) | UB u => (c, UB u) | Diverge => (c, Diverge) | Exit k => (c, Exit k)
             end.

  (** Callbacks.h:80-93 set_parent; line 86 copies the key *)
  Definition f_set_parent : cmd fstate unit :=
    _ <- (fun c =>
            match h_keys (f_h c) with
            | [] => f_do (Assign (v_root, []) (v_param, [])) c
            | key :: _ =>
                (_ <- f_ask ;;
                 par <- lift (load (s_mem (h_mem (f_h c))) (0, At (top (f_h c)))) ;;
                 match v_kind par with
                 | KObj => f_do (Put (top (f_h c), []) key (v_param, []))
                 | KArr => f_do (Push (top (f_h c), []) (v_param, []))
                 | _ => cret tt
                 end) c
            end) ;;
    f_do (Destroy v_param).
  (** Callbacks.h:31-34, 48-52 *)
  Definition f_leaf (x : ctor) : cmd fstate unit :=
    _ <- f_all [New v_local x; Copy v_param (v_local, [])] ;;
    _ <- f_set_parent ;;
    f_do (Destroy v_local).
  (** Callbacks.h:39-41: the local s256, the value that is lent it, and the copy for set_parent *)
  Definition f_lend (z : Z) : cmd fstate unit :=
    fun c =>
      let st := h_mem (f_h c) in
      match (r <- copy_construct_a alloc (s_mem st ++ [Auto (BInt z)]) (f_n c) (mkV KInt (HPtr (length (s_mem st)))) ;; begin_a (s_alive st) v_param r)%outcome with
      | Ret (s, n, b) => (mkFS (with_mem (f_h c) s) n, if b then Throw StdBadAlloc else Ret tt)
      | Throw e => (c, Throw e) | UB u => (c, UB u) | Diverge => (c, Diverge) | Exit k => (c, Exit k)
      end.
  (** Callbacks.h:42: the end of the locals of on_number *)
  Definition f_unlend (a : nat) : cmd fstate unit :=
    f_set (fun c =>
      (h <- destroy (fuel_of (s_mem (h_mem c))) (s_mem (h_mem c)) (mkV KInt (HPtr a)) ;;
       Ret (with_mem c (mkS (s_alive (h_mem c)) (set_nth a Dead h))))%outcome).
  (** Callbacks.h:36-42 *)
  Definition f_number (z : Z) : cmd fstate unit :=
    fun c => (_ <- f_lend z ;; _ <- f_set_parent ;; f_unlend (length (s_mem (h_mem (f_h c))))) c.
  (** std::vector::push_back that grows: the new storage, the new element, copies of the others (a Value and a key each),
      and the originals destroyed *)
  Fixpoint f_copies (side old : bool) (l : list nat) : cmd fstate unit :=
    match l with
    | [] => cret tt
    | i :: l' => _ <- f_do (Copy (v_stack side i) (v_stack old i, [])) ;; _ <- f_ask ;; f_copies side old l'
    end.
  (** Callbacks.h:55-59, 67-71 *)
  Definition f_begin (x : ctor) : cmd fstate unit :=
    fun c0 =>
      let c := f_h c0 in
      let d := depth c in
      let old := h_side c in
      let side := if grows (h_pushes c) then negb old else old in
      (_ <- f_all [New v_local x; Copy v_made (v_local, []); Move v_conv (v_made, [])] ;;
       _ <- (if grows (h_pushes c) then f_ask else cret tt) ;;
       _ <- f_do (Move (v_stack side d) (v_conv, [])) ;;
       _ <- (if grows (h_pushes c)
             then (_ <- f_copies side old (indices d) ;; f_all (map (fun i => Destroy (v_stack old i)) (indices d)))
             else cret tt) ;;
       _ <- f_all [Destroy v_conv; Destroy v_made; Destroy v_local] ;;
       f_set (fun c => Ret (mkH (h_mem c) ([] :: h_keys c) side (S (h_pushes c))))) c0.
  (** Callbacks.h:61-65, 73-77 *)
  Definition f_end : cmd fstate unit :=
    fun c0 =>
      let c := f_h c0 in
      match h_keys c with
      | [] => (c0, UB OutOfBounds)
      | _ :: ks =>
          (_ <- f_all [Copy v_local (top c, []); Destroy (top c)] ;;
           _ <- f_set (fun c => Ret (mkH (h_mem c) ks (h_side c) (h_pushes c))) ;;
           _ <- f_do (Copy v_param (v_local, [])) ;;
           _ <- f_set_parent ;;
           f_do (Destroy v_local)) c0
      end.
  (** Callbacks.h:31-77, Parser.h:84-122: the characters, the std::string made of them, and the callback *)
  Definition K_fault : callbacks fstate :=
    mkK (fun b => f_leaf (CBool b))
        (fun z => _ <- f_ask ;; _ <- f_ask ;; f_number z)
        (fun s isKey => _ <- f_ask ;; _ <- f_ask ;; if isKey then f_set (h_key s) else f_leaf (CStr s))
        (f_begin CArr) (f_begin CObj) f_end.

  (** Parser.h:44-54 *)
  Definition f_parse (lay : layout) (s : bytes) : cmd fstate bool :=
    ok <- kparse K_fault lay s ;;
    if ok then cret true else _ <- f_ask ;; cret false.
  (** eni.cpp:19 new json::Array() and delegate *)
  Definition f_results : cmd fstate unit :=
    _ <- f_ask ;;
    f_set (fun c => (st <- step_op (mkS (s_alive (h_mem c)) (s_mem (h_mem c) ++ [Heap (BArr [])])) (Delegate (v_rets, []) (length (s_mem (h_mem c)))) ;;
                     Ret (with_mem c st))%outcome).
  (** eni.cpp:15-21; the parser is destroyed at the end *)
  Definition f_base (lay : layout) (text : bytes) : cmd fstate unit :=
    _ <- f_all [New v_args CUndef; New v_rets CUndef; New v_root CUndef] ;;
    ok <- f_parse lay text ;;
    if ok then
      _ <- f_do (Assign (v_args, []) (v_root, [])) ;;
      _ <- f_results ;;
      (fun c => f_all (Destroy v_root :: map (fun i => Destroy (v_stack (h_side (f_h c)) i)) (indices (depth (f_h c)))) c)
    else lift (Exit 87).

  (** What an exception that passes destroys: pV; the elements of m_Stack that were made in new storage; the temporaries of
      make_pair; v; m_Root and m_Stack of the parser; m_RetVals and m_Args.  Callbacks.h:80, 58, 32, 104-105; eni.h:87-88 *)
  Definition passed (c : hstate) : list nat :=
    v_param :: map (v_stack (negb (h_side c))) (indices (S (depth c))) ++ [v_conv; v_made; v_local; v_root] ++
    map (v_stack (h_side c)) (indices (depth c)) ++ [v_rets; v_args].
  (** those of them that exist  (the machine, not code) *)
  Fixpoint unwind (st : state) (l : list nat) : outcome state :=
    match l with
    | [] => Ret st
    | x :: l' => if is_alive (s_alive st) x then bind (step_op st (Destroy x)) (fun st' => unwind st' l') else unwind st l'
    end.

  (** eni.cpp:15-21: the constructor of EniBase returns ([true]), or throws std::bad_alloc ([false]) *)
  Definition base_make_a (lay : layout) (text : bytes) (st : state) (n : nat) : outcome (state * nat * bool) :=
    let (c, r) := f_base lay text (mkFS (mkH st [] false 0) n) in
    match r with
    | Ret _ => Ret (h_mem (f_h c), f_n c, true)
    | Throw StdBadAlloc => bind (unwind (h_mem (f_h c)) (passed (f_h c))) (fun st' => Ret (st', f_n c, false))
    | Throw e => Throw e
    | UB u => UB u
    | Diverge => Diverge
    | Exit k => Exit k
    end.
End Fault.
