(** What an operation's C functions answer, in terms of its arguments and virtual functions alone. *)
From Verif Require Import Base JsonSpec JsonModel JsonDenotes ValueSpec JsonHeapSpec EniModel.
From Coq Require Import List NArith ZArith Bool.
Import ListNotations.

(** what run() appends to the return values *)
Inductive retval : Type := RetBool (b : bool) | RetInt (z : Z) | RetStr (s : bytes).

(** An operation class by its virtual functions over data members of type [h_st].  parse() sees the contents of its
    arguments; run() appends return values with emplace_back and then returns, throws, ... *)
Record hclass : Type := mkHC {
  h_st : Type;
  h_init : h_st;
  h_parse : h_st -> list tree -> h_st * outcome bool;
  h_gas : h_st -> outcome N;
  h_run : h_st -> h_st * list retval * outcome bool
}.

(** the answers of OP_gas and OP_run; [Nothing] is the null pointer *)
Inductive answer : Type := Gas (n : N) | Text (t : bytes) | Nothing.

(** a return value as a json::Value *)
Definition ret_value (r : retval) : jvalue :=
  match r with RetBool b => JBool b | RetInt z => JInt z | RetStr s => JStr s end.

(** OP_gas and OP_run with the arguments [l] *)
Definition gas_answer (c : hclass) (l : list ast) : outcome answer :=
  let (s, ok) := h_parse c (h_init c) (map denote l) in
  b <- ok ;; if b then g <- h_gas c s ;; Ret (Gas g) else Ret (Gas 1500).
Definition run_answer (c : hclass) (l : list ast) : outcome answer :=
  let (s, ok) := h_parse c (h_init c) (map denote l) in
  b <- ok ;;
  if b then
    let '(_, out, ok') := h_run c s in
    b' <- ok' ;;
    if b' then t <- print (JArr (map ret_value out)) ;; Ret (Text (cstr t)) else Ret Nothing
  else Ret Nothing.

(** the return values an OP_run with these arguments makes *)
Definition returned (c : hclass) (l : list ast) : list retval :=
  let (s, ok) := h_parse c (h_init c) (map denote l) in
  match ok with Ret true => snd (fst (h_run c s)) | _ => [] end.

(** ** Programs of calls *)

(** which C function of which class is called with which string; where memory lies and when vectors grow in that call *)
Record call : Type := mkCall { k_gas : bool; k_class : hclass; k_buf : bytes; k_lay : layout; k_grows : nat -> bool }.

(** the C string is a text for an array of the values [l] *)
Definition takes (k : call) (l : list ast) : Prop := exists r, gval (readable (k_lay k)) (cstr (k_buf k)) (AArr l) r.

Definition call_answer (k : call) (l : list ast) : outcome answer :=
  if k_gas k then gas_answer (k_class k) l else run_answer (k_class k) l.
Definition call_returned (k : call) (l : list ast) : list retval :=
  if k_gas k then [] else returned (k_class k) l.

(** call by call, until one does not return *)
Fixpoint answers (ks : list call) (args : list (list ast)) : outcome (list answer) :=
  match ks, args with
  | k :: ks', l :: args' => a <- call_answer k l ;; as_ <- answers ks' args' ;; Ret (a :: as_)
  | _, _ => Ret []
  end.

(** a return value and the objects made for it and its copy: a boolean needs none *)
Definition ret_cost (r : retval) : nat := match r with RetBool _ => 1 | RetInt _ | RetStr _ => 3 end.
Fixpoint lost (ks : list call) (args : list (list ast)) : nat :=
  match ks, args with
  | k :: ks', l :: args' => list_sum (map ret_cost (call_returned k l)) + lost ks' args'
  | _, _ => 0
  end.

(** no return value, and arguments as in C63 *)
Definition spares (k : call) (l : list ast) : Prop := plain_text (AArr l) /\ call_returned k l = [].

(** ** The same class as in EniModel.v, there with a parse() on values *)
Definition as_op (c : hclass) (p : h_st c -> list jvalue -> h_st c * outcome bool) : opclass :=
  mkOp (h_st c) (h_init c) p (h_gas c) (fun s l => let '(s', out, r) := h_run c s in (s', l ++ map ret_value out, r)).
