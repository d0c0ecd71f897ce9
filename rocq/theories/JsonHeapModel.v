(** Model of json::Parser and json::Callbacks (/repo/include/eni/json/Parser.h, Callbacks.h) and of the construction and
    destruction of EniBase (/repo/lib/eni.cpp:15-26) on the memory of ValueModel.v.

    The scanner is that of JsonModel.v.  The recursive descent is written once more, for any callbacks, because here an
    exception must leave the memory behind; [parser_same] in JsonHeapProof.v shows that it is the one of JsonModel.v.
    As in ValueModel.v the keys are shorter than 65536 bytes and allocation succeeds. *)
From Verif Require Import Base JsonModel ValueSpec ValueModel.
From Coq Require Import List NArith ZArith Bool Arith.
From Coq.Init Require Import Byte.
From Coq.Strings Require Import Byte.
Import ListNotations.

(** code that changes a state and keeps the changes when it throws  (plumbing, not code) *)
Definition cmd (C A : Type) : Type := C -> C * outcome A.
(** (plumbing, not code) *)
Definition cret {C A} (a : A) : cmd C A := fun c => (c, Ret a).
(** (plumbing, not code) *)
Definition lift {C A} (m : outcome A) : cmd C A := fun c => (c, m).
(** One after the other (plumbing, not code) *)
Definition cbind {C A B} (m : cmd C A) (k : A -> cmd C B) : cmd C B :=
  fun c =>
    let (c', r) := m c in
    match r with
    | Ret a => k a c'
    | Throw e => (c', Throw e)
    | UB u => (c', UB u)
    | Diverge => (c', Diverge)
    | Exit n => (c', Exit n)
    end.
Declare Scope cmd_scope.
Delimit Scope cmd_scope with cmd.
Notation "x <- m ;; k" := (cbind m (fun x => k)) (at level 61, m at next level, right associativity) : cmd_scope.
Notation "' pat <- m ;; k" := (cbind m (fun x => match x with pat => k end)) (at level 61, pat pattern, m at next level, right associativity) : cmd_scope.

(** Callbacks.h:31-77.  The conversion of the digits to s256 (Callbacks.h:38-39) is done by the caller. *)
Record callbacks (C : Type) : Type := mkK {
  k_boolean : bool -> cmd C unit;
  k_number : Z -> cmd C unit;
  k_string : bytes -> bool -> cmd C unit;
  k_begin_array : cmd C unit;
  k_begin_object : cmd C unit;
  k_end : cmd C unit            (* end_array and end_object are the same *)
}.
Arguments mkK {C}.
Arguments k_boolean {C}. Arguments k_number {C}. Arguments k_string {C}. Arguments k_begin_array {C}. Arguments k_begin_object {C}. Arguments k_end {C}.

Section Descent.
  Context {C : Type}.
  Variable K : callbacks C.
  Local Open Scope cmd_scope.

  (** Parser.h:101-122 *)
  Definition kparse_string (isKey : bool) (s : bytes) : cmd C (bool * bytes) :=
    s <- lift (skip_ws s) ;;
    '(b, s) <- lift (have x22 s) ;;
    if b then
      '(s, str) <- lift (string_loop (S (length s)) s []) ;;
      _ <- k_string K str isKey ;;
      cret (true, s)
    else cret (false, s).

  (** Parser.h:69-82 *)
  Definition kparse_boolean (lay : layout) (s : bytes) : cmd C (bool * bytes) :=
    s <- lift (skip_ws s) ;;
    '(b, s) <- lift (have x74 s) ;;
    if b then
      s <- lift (expect_pat (a_end lay) (a_rue lay) [x72; x75; x65] no_true s) ;;
      _ <- k_boolean K true ;; cret (true, s)
    else
    '(b, s) <- lift (have x66 s) ;;
    if b then
      s <- lift (expect_pat (a_end lay) (a_alse lay) [x61; x6c; x73; x65] no_false s) ;;
      _ <- k_boolean K false ;; cret (true, s)
    else cret (false, s).

  (** Parser.h:84-99 *)
  Definition kparse_number (s : bytes) : cmd C (bool * bytes) :=
    s <- lift (skip_ws s) ;;
    '(started, s, str) <- lift (have_if (fun h => beqb h x2d) s []) ;;
    '(zero, s, str) <- lift (have_if (fun h => beqb h x30) s str) ;;
    '(ok, s, str) <- lift (if zero then Ret (true, s, str) else parse_int_part s str) ;;
    if ok then _ <- k_number K (s256_of_string str) ;; cret (true, s)
    else if started then lift (Throw (ParserError no_digits)) else cret (false, s).

  Section Containers.
    Variable parse_value : bytes -> cmd C bytes.

    (** Parser.h:135-138 *)
    Fixpoint kelems_loop (fuel : nat) (s : bytes) : cmd C bytes :=
      match fuel with
      | O => lift Diverge
      | S f =>
          s <- parse_value s ;;
          s <- lift (skip_ws s) ;;
          '(b, s) <- lift (have x2c s) ;;
          if b then kelems_loop f s else cret s
      end.

    (** Parser.h:124-142 *)
    Definition kparse_array (s : bytes) : cmd C (bool * bytes) :=
      s <- lift (skip_ws s) ;;
      '(b, s) <- lift (have x5b s) ;;
      if b then
        _ <- k_begin_array K ;;
        s <- lift (skip_ws s) ;;
        '(b, s) <- lift (have x5d s) ;;
        if b then _ <- k_end K ;; cret (true, s)
        else
          s <- kelems_loop (S (length s)) s ;;
          s <- lift (expect x5d no_bracket s) ;;
          _ <- k_end K ;; cret (true, s)
      else cret (false, s).

    (** Parser.h:154-161 *)
    Fixpoint kmembers_loop (fuel : nat) (s : bytes) : cmd C bytes :=
      match fuel with
      | O => lift Diverge
      | S f =>
          '(b, s) <- kparse_string true s ;;
          if b then
            s <- lift (skip_ws s) ;;
            s <- lift (expect x3a no_colon s) ;;
            s <- parse_value s ;;
            s <- lift (skip_ws s) ;;
            '(b, s) <- lift (have x2c s) ;;
            if b then kmembers_loop f s else cret s
          else lift (Throw (ParserError no_key))
      end.

    (** Parser.h:144-165 *)
    Definition kparse_object (s : bytes) : cmd C (bool * bytes) :=
      s <- lift (skip_ws s) ;;
      '(b, s) <- lift (have x7b s) ;;
      if b then
        _ <- k_begin_object K ;;
        s <- lift (skip_ws s) ;;
        '(b, s) <- lift (have x7d s) ;;
        if b then _ <- k_end K ;; cret (true, s)
        else
          s <- kmembers_loop (S (length s)) s ;;
          s <- lift (expect x7d no_brace s) ;;
          _ <- k_end K ;; cret (true, s)
      else cret (false, s).
  End Containers.

  (** Parser.h:60-67 *)
  Fixpoint kparse_value (lay : layout) (fuel : nat) (s : bytes) : cmd C bytes :=
    match fuel with
    | O => lift Diverge
    | S f =>
        '(b, s) <- kparse_object (kparse_value lay f) s ;; if b then cret s else
        '(b, s) <- kparse_array (kparse_value lay f) s ;; if b then cret s else
        '(b, s) <- kparse_string false s ;; if b then cret s else
        '(b, s) <- kparse_boolean lay s ;; if b then cret s else
        '(b, s) <- kparse_number s ;; if b then cret s else
        lift (Throw (ParserError no_value))
    end.

  (** Parser.h:44-54 the constructor: m_ParseSucceed *)
  Definition kparse (lay : layout) (s : bytes) : cmd C bool :=
    fun c =>
      let (c', r) := kparse_value lay (S (length s)) s c in
      match r with
      | Ret _ => (c', Ret true)
      | Throw (ParserError _) => (c', Ret false)
      | Throw e => (c', Throw e)
      | UB u => (c', UB u)
      | Diverge => (c', Diverge)
      | Exit n => (c', Exit n)
      end.
End Descent.

(** ** The callbacks on the memory *)

(** The variables of type Value: m_Root; the local v of a callback; the parameter pV of set_parent; the pair that
    make_pair returns and the pair it is converted to, of which only the Value matters; m_Args and m_RetVals of an
    EniBase; and from [v_stack] on the elements of m_Stack in one of two places, as the vector moves its elements
    when it grows.  Callbacks.h:105 m_Root *)
Definition v_root : nat := 0.
(** Callbacks.h:32, 37, 50, 57, 62, 69, 74 *)
Definition v_local : nat := 1.
(** Callbacks.h:80 pV *)
Definition v_param : nat := 2.
(** Callbacks.h:58, 70 make_pair *)
Definition v_made : nat := 3.
(** Callbacks.h:58, 70: the element type of m_Stack is pair<Value, string>, line 104 *)
Definition v_conv : nat := 4.
(** eni.h:87 m_Args *)
Definition v_args : nat := 5.
(** eni.h:88 m_RetVals *)
Definition v_rets : nat := 6.
(** Callbacks.h:104 m_Stack[i].first *)
Definition v_stack (side : bool) (i : nat) : nat := 7 + 2 * i + (if side then 1 else 0).

(** Callbacks.h:104 m_Stack: the keys, last first, and where the values are; how often push_back was called *)
Record hstate : Type := mkH { h_mem : state; h_keys : list bytes; h_side : bool; h_pushes : nat }.

(** One after the other, front to back (plumbing, not code) *)
Fixpoint do_ops (st : state) (l : list op) : outcome state :=
  match l with
  | [] => Ret st
  | o :: l' => st' <- step_op st o ;; do_ops st' l'
  end.
(** m_Stack.size(): Callbacks.h:104 *)
Definition depth (c : hstate) : nat := length (h_keys c).
(** m_Stack.back().first: Callbacks.h:62, 74, 85 *)
Definition top (c : hstate) : nat := v_stack (h_side c) (pred (depth c)).

(** Callbacks.h:80-93 set_parent after the parameter was made, to its destruction *)
Definition h_set_parent (c : hstate) : outcome hstate :=
  let st := h_mem c in
  st' <- match h_keys c with
         | [] => step_op st (Assign (v_root, []) (v_param, []))
         | key :: _ =>
             par <- load (s_mem st) (0, At (top c)) ;;
             match v_kind par with
             | KObj => step_op st (Put (top c, []) key (v_param, []))
             | KArr => step_op st (Push (top c, []) (v_param, []))
             | _ => Ret st
             end
         end ;;
  st'' <- step_op st' (Destroy v_param) ;;
  Ret (mkH st'' (h_keys c) (h_side c) (h_pushes c)).
(** The memory afterwards (plumbing, not code) *)
Definition with_mem (c : hstate) (st : state) : hstate := mkH st (h_keys c) (h_side c) (h_pushes c).

(** Callbacks.h:31-34 on_boolean, 48-52 on_string *)
Definition h_leaf (x : ctor) (c : hstate) : outcome hstate :=
  st <- do_ops (h_mem c) [New v_local x; Copy v_param (v_local, [])] ;;
  c <- h_set_parent (with_mem c st) ;;
  st <- do_ops (h_mem c) [Destroy v_local] ;;
  Ret (with_mem c st).
(** Callbacks.h:36-42 on_number: v is lent the local s256 by delegate() (Value.cpp:97-104); its destructor leaves it alone *)
Definition h_number (z : Z) (c : hstate) : outcome hstate :=
  let st := h_mem c in
  let a := length (s_mem st) in
  let v := mkV KInt (HPtr a) in
  '(h, w) <- copy_construct (s_mem st ++ [Auto (BInt z)]) v ;;
  st <- begin_var (s_alive st) h v_param w ;;
  c <- h_set_parent (with_mem c st) ;;
  h <- destroy (fuel_of (s_mem (h_mem c))) (s_mem (h_mem c)) v ;;
  Ret (with_mem c (mkS (s_alive (h_mem c)) (set_nth a Dead h))).
(** Callbacks.h:45-47: back() of an empty vector is undefined *)
Definition h_key (k : bytes) (c : hstate) : outcome hstate :=
  match h_keys c with
  | [] => UB OutOfBounds
  | _ :: ks => Ret (mkH (h_mem c) (k :: ks) (h_side c) (h_pushes c))
  end.
(** std::vector::push_back of a pair whose move constructor may throw: the new element first; if the vector grows the
    others are copied and the originals destroyed *)
Section Push.
  (** whether the [n]-th push_back grows the vector *)
  Variable grows : nat -> bool.
  (** 0 .. n-1 (plumbing, not code) *)
  Definition indices (n : nat) : list nat := seq 0 n.
  (** Callbacks.h:55-59 and 67-71: make_pair copies v; the pair is converted by moving, and moved into the vector *)
  Definition h_begin (x : ctor) (c : hstate) : outcome hstate :=
    let d := depth c in
    let side := if grows (h_pushes c) then negb (h_side c) else h_side c in
    st <- do_ops (h_mem c) [New v_local x; Copy v_made (v_local, []); Move v_conv (v_made, []); Move (v_stack side d) (v_conv, [])] ;;
    st <- (if grows (h_pushes c)
           then do_ops st (map (fun i => Copy (v_stack side i) (v_stack (h_side c) i, [])) (indices d) ++
                           map (fun i => Destroy (v_stack (h_side c) i)) (indices d))
           else Ret st) ;;
    st <- do_ops st [Destroy v_conv; Destroy v_made; Destroy v_local] ;;
    Ret (mkH st ([] :: h_keys c) side (S (h_pushes c))).
  (** Callbacks.h:61-65 and 73-77 *)
  Definition h_end (c : hstate) : outcome hstate :=
    match h_keys c with
    | [] => UB OutOfBounds
    | _ :: ks =>
        st <- do_ops (h_mem c) [Copy v_local (top c, []); Destroy (top c); Copy v_param (v_local, [])] ;;
        c <- h_set_parent (mkH st ks (h_side c) (h_pushes c)) ;;
        st <- do_ops (h_mem c) [Destroy v_local] ;;
        Ret (with_mem c st)
    end.

  (** Nothing is kept of a call that does not return (plumbing, not code) *)
  Definition hcmd (f : hstate -> outcome hstate) : cmd hstate unit :=
    fun c => match f c with
             | Ret c' => (c', Ret tt)
             | Throw e => (c, Throw e) | UB u => (c, UB u) | Diverge => (c, Diverge) | Exit n => (c, Exit n)
             end.
  (** Callbacks.h:31-77 *)
  Definition K_heap : callbacks hstate :=
    mkK (fun b => hcmd (h_leaf (CBool b))) (fun z => hcmd (h_number z))
        (fun s isKey => hcmd (if isKey then h_key s else h_leaf (CStr s)))
        (hcmd (h_begin CArr)) (hcmd (h_begin CObj)) (hcmd h_end).

  (** Parser.h:40-54 construction of a Parser: m_Root and m_Stack, then the text *)
  Definition parser_make (lay : layout) (s : bytes) (st : state) : hstate * outcome bool :=
    match step_op st (New v_root CUndef) with
    | Ret st' => kparse K_heap lay s (mkH st' [] false 0)
    | Throw e => (mkH st [] false 0, Throw e)
    | UB u => (mkH st [] false 0, UB u)
    | Diverge => (mkH st [] false 0, Diverge)
    | Exit n => (mkH st [] false 0, Exit n)
    end.
  (** destruction of a Parser: m_Root, then the elements of m_Stack that are left:
      Callbacks.h:104-105 in reverse order *)
  Definition parser_drop (c : hstate) : outcome state :=
    do_ops (h_mem c) (Destroy v_root :: map (fun i => Destroy (v_stack (h_side c) i)) (indices (depth c))).

  (** ** EniBase *)
  (** eni.cpp:15-21 *)
  Definition base_make (lay : layout) (text : bytes) (st : state) : outcome state :=
    st <- do_ops st [New v_args CUndef; New v_rets CUndef] ;;
    let (c, r) := parser_make lay text st in
    ok <- r ;;
    if ok then
      st <- step_op (h_mem c) (Assign (v_args, []) (v_root, [])) ;;
      st <- step_op (mkS (s_alive st) (s_mem st ++ [Heap (BArr [])])) (Delegate (v_rets, []) (length (s_mem st))) ;;
      parser_drop (with_mem c st)
    else Exit 87.
  (** the members in reverse order: eni.h:87-88, eni.cpp:23-25 *)
  Definition base_drop (st : state) : outcome state := do_ops st [Destroy v_rets; Destroy v_args].
End Push.
