(** Model of test/consensus/consensus.py, the tool that checks that operations always give the same result.

    Python strings are the bytes of their UTF-8 form; what is printed to standard output is not modelled.  [None] is an
    exception that nothing catches. *)
From Verif Require Import Base.
From Coq Require Import List NArith ZArith Bool.
From Coq.Init Require Import Byte.
Import ListNotations.

(** a finished process: exit status, standard output, standard error, consensus.py:114-116 *)
Record proc : Type := mkP { returncode : Z; stdout : bytes; stderr : bytes }.

(** plumbing, not code: Python exceptions are [None] *)
Definition optbind {A B} (x : option A) (f : A -> option B) : option B := match x with Some a => f a | None => None end.
Notation "x <~ m ;; k" := (optbind m (fun x => k)) (at level 61, m at next level, right associativity).

(** consensus.py:67-71 casecmp *)
Definition casecmp (p q : proc) : bool :=
  Z.eqb (returncode p) (returncode q) && bytes_eqb (stdout p) (stdout q) && bytes_eqb (stderr p) (stderr q).

(** consensus.py:42-44 TestCase *)
Record tcase : Type := mkTC { first : option proc; count : nat; same : bool }.
(** consensus.py:43-44 __init__ *)
Definition tc_new : tcase := mkTC None 0 true.
(** consensus.py:46-47 start_one *)
Definition tc_start (t : tcase) : tcase := mkTC (first t) (S (count t)) (same t).

(** consensus.py:14-19 TestResult, its start and the first line of start_one *)
Record tresult : Type := mkTR { n_tests : nat; n_run : nat; n_failed : nat }.
(** consensus.py:15-16 *)
Definition tr_new : tresult := mkTR 0 0 0.
Definition tr_start (r : tresult) : tresult := mkTR (S (n_tests r)) (n_run r) (n_failed r).
(** consensus.py:31-33 finish_one *)
Definition tr_finish (r : tresult) (success : bool) : tresult :=
  mkTR (n_tests r) (S (n_run r)) (n_failed r + (if success then 0 else 1)).
(** consensus.py:35-40 summarize; comparing with 0 by identity is comparing by value in CPython *)
Definition tr_summarize (r : tresult) : bool :=
  if negb (Nat.eqb (n_tests r) (n_run r)) then false else if negb (Nat.eqb (n_failed r) 0) then false else true.

(** str.rstrip of newlines, consensus.py:91 *)
Fixpoint rstrip_lf (s : bytes) : bytes :=
  match s with
  | [] => []
  | c :: s' => match rstrip_lf s' with
               | [] => if beqb c x0a then [] else [c]
               | r => c :: r
               end
  end.

(** str.join with a comma, consensus.py:105 *)
Fixpoint join_commas (l : list bytes) : bytes :=
  match l with
  | [] => []
  | [x] => x
  | x :: l' => x ++ x2c :: join_commas l'
  end.

(** consensus.py:105-108, the text of the parameters; every one is a string *)
Definition params_text (l : list bytes) : bytes := x5b :: join_commas (map (fun x => x22 :: x ++ [x22]) l) ++ [x5d].

Section Tool.
  (** whether bytes are UTF-8; else decode raises *)
  Variable utf8 : bytes -> bool.
  (** [launch k args]: the k-th call of subprocess.run *)
  Variable launch : nat -> list bytes -> option proc.
  (** the random strings and hexadecimal strings made for argument [j] of test [i], given the text of the length; the
      contents of files *)
  Variables rands randh : nat -> nat -> bytes -> option bytes.
  Variable file : bytes -> option bytes.

  (** consensus.py:49-59 finish_one *)
  Definition tc_finish (t : tcase) (p : proc) : option (tcase * bool) :=
    if utf8 (stdout p) && utf8 (stderr p) then
      if Nat.eqb (count t) 1 then Some (mkTC (Some p) (count t) (same t), true)
      else match first t with
           | None => None
           | Some q => let s := casecmp q p in Some (mkTC (first t) (count t) s, s)
           end
    else None.
  (** consensus.py:61-65 summarize *)
  Definition tc_summarize (t : tcase) : bool := negb (Nat.leb (count t) 1 || negb (same t)).

  (** consensus.py:110-119 repeat: [k] processes were started before; [n] rounds are left *)
  Fixpoint repeat_loop (args : list bytes) (n k : nat) (t : tcase) : option (nat * bool) :=
    match n with
    | O => Some (k, tc_summarize t)
    | S n' =>
        let t := tc_start t in
        p <~ launch k args ;;
        r <~ tc_finish t p ;;
        if snd r then repeat_loop args n' (S k) (fst r) else Some (S k, tc_summarize (fst r))
    end.

  (** consensus.py:83-104 expand; exceptions are caught by the caller *)
  Definition expand_arg (i j : nat) (arg : bytes) : option bytes :=
    match arg with
    | [] => None
    | c :: r =>
        if beqb c x73 then rands i j (tl r)
        else if beqb c x66 then option_map rstrip_lf (file (tl r))
        else if beqb c x68 then randh i j (tl r)
        else None
    end.
  Fixpoint expand_args (i j : nat) (args : list bytes) : option (list bytes) :=
    match args with
    | [] => Some []
    | a :: args' => x <~ expand_arg i j a ;; l <~ expand_args i (S j) args' ;; Some (x :: l)
    end.
  (** consensus.py:22-29 start_one: the operation and its parameters *)
  Definition start_test (i : nat) (args : list bytes) : option (bytes * bytes) :=
    match args with
    | [] => None
    | op :: args => l <~ expand_args i 0 args ;; Some (op, params_text l)
    end.

  (** what eni_run is called, consensus.py:129 *)
  Definition eni_run : bytes := [x65; x6e; x69; x5f; x72; x75; x6e].

  (** consensus.py:121-131 run_tests over the tests [(path, args)] in order; [i] tests were started before *)
  Fixpoint run_loop (n_repeat : nat) (tests : list (bytes * list bytes)) (i k : nat) (r : tresult) : option bool :=
    match tests with
    | [] => Some (tr_summarize r)
    | (so, args) :: tests' =>
        let r := tr_start r in
        match start_test i args with
        | Some (op :: op', params) =>
            x <~ repeat_loop [eni_run; so; op :: op'; params] n_repeat k tc_new ;;
            run_loop n_repeat tests' (S i) (fst x) (tr_finish r (snd x))
        | _ => run_loop n_repeat tests' (S i) k r
        end
    end.
  (** consensus.py:121-131 run_tests; line 122 is the assertion *)
  Definition run_tests (n_repeat : Z) (tests : list (bytes * list bytes)) : option bool :=
    if (1 <? n_repeat)%Z then run_loop (Z.to_nat n_repeat) tests 0 0 tr_new else None.

  (** json.loads of the description file, whose members are [(path, list of tests)]: a later member replaces an earlier
      one of the same path, in its place; consensus.py:141 *)
  Fixpoint dict_set (d : list (bytes * list (list bytes))) (k : bytes) (v : list (list bytes)) : list (bytes * list (list bytes)) :=
    match d with
    | [] => [(k, v)]
    | (k', v') :: d' => if bytes_eqb k' k then (k', v) :: d' else (k', v') :: dict_set d' k v
    end.
  Definition loads (members : list (bytes * list (list bytes))) : list (bytes * list (list bytes)) :=
    fold_left (fun d m => dict_set d (fst m) (snd m)) members [].
  (** the two loops of run_tests, consensus.py:124-125 *)
  Definition tests_of (d : list (bytes * list (list bytes))) : list (bytes * list bytes) :=
    flat_map (fun m => map (fun args => (fst m, args)) (snd m)) d.

  (** consensus.py:133-145 the exit status; an uncaught exception also gives 1 *)
  Definition exit_status (n_repeat : Z) (members : list (bytes * list (list bytes))) : Z :=
    match run_tests n_repeat (tests_of (loads members)) with
    | Some true => 0
    | _ => 1
    end.
End Tool.
