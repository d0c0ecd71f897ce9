(** Model of eni::EniBase and of the C interface macros (/repo/include/eni/eni.h, /repo/lib/eni.cpp).

    An operation class is given by its three virtual functions over its own data members; they are
    arbitrary and may throw, run into undefined behaviour or diverge.  Calls to them are logged.
    The result text is the argument of strdup up to the first NUL. *)
From Verif Require Import Base JsonModel.
From Coq Require Import List NArith ZArith Bool.
From Coq.Init Require Import Byte.
From Coq.Strings Require Import Byte.
Import ListNotations.

(** eni.h:78-82 the virtual functions of a derived class with data members of type [ost].  parse and run
    return the data members they leave behind, also when they throw; gas is const. *)
Record opclass : Type := mkOp {
  ost : Type;
  oinit : ost;                                                        (* after the derived constructor *)
  oparse : ost -> list jvalue -> ost * outcome bool;
  ogas : ost -> outcome N;
  orun : ost -> list jvalue -> ost * list jvalue * outcome bool       (* also the array pRetVal *)
}.

(** calls to the virtual functions; [None] when parse threw; not code, the log is an observation *)
Inductive event : Type :=
| EParse (result : option bool)
| EGas
| ERun.

Section Eni.
  Variable c : opclass.

  (** eni.h:85-88 the data members, and the log *)
  Record ebase : Type := mkE {
    e_parsed : bool;
    e_success : bool;
    e_args : jvalue;
    e_ret : jvalue;
    e_op : ost c;
    e_log : list event
  }.

  (** Value.h:48, 54 asArray and toArray: the pointer is used as a pointer to an Array whatever the type *)
  Definition as_array (v : jvalue) : outcome (list jvalue) :=
    match v with
    | JArr l => Ret l
    | _ => UB TypeConfusion
    end.

  (** eni.cpp:15-21 constructor; [exit] ends the process.  delegate(new Array) makes an empty array. *)
  Definition construct (lay : layout) (text : bytes) : outcome ebase :=
    '(ok, root) <- parse lay text ;;
    if ok then Ret (mkE false false (jcopy root) new_array (oinit c) []) else Exit 87.

  (** eni.h:69-75 check *)
  Definition check (st : ebase) : ebase * outcome bool :=
    if e_parsed st then (st, Ret (e_success st)) else
    match as_array (e_args st) with
    | Ret args =>
        let (s', r) := oparse c (e_op st) args in
        match r with
        | Ret b => (mkE true b (e_args st) (e_ret st) s' (e_log st ++ [EParse (Some b)]), Ret b)
        | _ => (mkE false (e_success st) (e_args st) (e_ret st) s' (e_log st ++ [EParse None]), r)
        end
    | UB u => (st, UB u)
    | Throw e => (st, Throw e)
    | Diverge => (st, Diverge)
    | Exit n => (st, Exit n)
    end.

  (** not code: the observation *)
  Definition log (st : ebase) (e : event) : ebase :=
    mkE (e_parsed st) (e_success st) (e_args st) (e_ret st) (e_op st) (e_log st ++ [e]).

  (** eni.h:50-54 getGas *)
  Definition get_gas (st : ebase) : ebase * outcome N :=
    let (st, r) := check st in
    match r with
    | Ret true => (log st EGas, ogas c (e_op st))
    | Ret false => (st, Ret 1500%N)
    | Throw e => (st, Throw e)
    | UB u => (st, UB u)
    | Diverge => (st, Diverge)
    | Exit n => (st, Exit n)
    end.

  (** eni.h:56-66 start; [None] is the null pointer *)
  Definition start (st : ebase) : ebase * outcome (option bytes) :=
    let (st, r) := check st in
    match r with
    | Ret true =>
        match as_array (e_ret st) with
        | Ret l =>
            let '(s', l', r) := orun c (e_op st) l in
            let st := mkE (e_parsed st) (e_success st) (e_args st) (JArr l') s' (e_log st ++ [ERun]) in
            (st, ok <- r ;; if ok then t <- print (e_ret st) ;; Ret (Some (cstr t)) else Ret None)
        | UB u => (st, UB u)
        | Throw e => (st, Throw e)
        | Diverge => (st, Diverge)
        | Exit n => (st, Exit n)
        end
    | Ret false => (st, Ret None)
    | Throw e => (st, Throw e)
    | UB u => (st, UB u)
    | Diverge => (st, Diverge)
    | Exit n => (st, Exit n)
    end.

  (** a program calling getGas and start on one object, catching exceptions; not code of the library *)
  Inductive ecall : Type := GetGas | Start.
  (** what the program sees; not code *)
  Inductive eanswer : Type :=
  | GasIs (n : N)
  | ResultIs (t : option bytes)
  | Threw (e : exn).

  (** not code: the catch clause of the program *)
  Definition ecatch {A} (f : A -> eanswer) (r : outcome A) : outcome eanswer :=
    match r with
    | Ret a => Ret (f a)
    | Throw e => Ret (Threw e)
    | UB u => UB u
    | Diverge => Diverge
    | Exit n => Exit n
    end.
  (** not code: one call *)
  Definition estep (st : ebase) (o : ecall) : outcome (ebase * eanswer) :=
    match o with
    | GetGas => let (st', r) := get_gas st in a <- ecatch GasIs r ;; Ret (st', a)
    | Start => let (st', r) := start st in a <- ecatch ResultIs r ;; Ret (st', a)
    end.
  (** not code: the calls in order *)
  Fixpoint erun (st : ebase) (l : list ecall) : outcome (ebase * list eanswer) :=
    match l with
    | [] => Ret (st, [])
    | o :: l' => '(st, a) <- estep st o ;; '(st, as_) <- erun st l' ;; Ret (st, a :: as_)
    end.

  (** eni.h:17-25 ENI_GAS and 27-33 ENI_RUN: the argument is a C string in [buf]; [None] is the null
      pointer.  An exception leaves the extern C function. *)
  Definition c_gas (lay : layout) (buf : bytes) : outcome N :=
    st <- construct lay (cstr buf) ;; snd (get_gas st).
  (** eni.h:27-33 *)
  Definition c_run (lay : layout) (buf : bytes) : outcome (option bytes) :=
    st <- construct lay (cstr buf) ;; snd (start st).
End Eni.
Arguments mkE {c} e_parsed e_success e_args e_ret e_op e_log.
Arguments e_log {c} e.
Arguments e_args {c} e.
Arguments e_ret {c} e.
Arguments e_op {c} e.
Arguments e_parsed {c} e.
Arguments e_success {c} e.
Arguments construct c lay text : clear implicits.
Arguments check {c} st.
Arguments get_gas {c} st.
Arguments start {c} st.
Arguments estep {c} st o.
Arguments erun {c} st l.

(** Value.h:52 toString: likewise without a look at the type *)
Definition to_string (v : jvalue) : outcome bytes :=
  match v with
  | JStr s => Ret s
  | _ => UB TypeConfusion
  end.
(** Array.h:29 pArgs[i] *)
Definition arg_at (args : list jvalue) (i : Z) : outcome jvalue := value_idx (JArr args) i.

(** /repo/examples/eni/reverse/eni_reverse.cpp:9-34 parse 17-20, gas 22-24, run 26-30 *)
Definition reverse_op : opclass :=
  mkOp bytes []
    (fun s args =>                                                    (* 18-21 parse *)
       match v <- arg_at args 0 ;; to_string v with
       | Ret t => (t, Ret true)
       | Throw e => (s, Throw e)
       | UB u => (s, UB u)
       | Diverge => (s, Diverge)
       | Exit n => (s, Exit n)
       end)
    (fun s => Ret (u64 (N.of_nat (length s) * 10)))                    (* 23-25 gas *)
    (fun s l => (s, l ++ [JStr (rev s)], Ret true)).                   (* 27-31 run *)
