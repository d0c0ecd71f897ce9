(** Model of tools/eni_cli: Opt::parse and the main functions of eni_gas and eni_run.

    The dynamic loader is a parameter; an operation's C function takes the C string it is passed and
    returns a pointer to a heap block, or NULL.  argv holds the strings without their NULs.  Text
    written to standard error is the subject of CliErrModel.v, dlclose has no effect on the returned block. *)
From Verif Require Import Base JsonModel EniModel ScryptModel.
From Coq Require Import List NArith ZArith Bool.
From Coq.Init Require Import Byte.
From Coq.Strings Require Import Byte.
Import ListNotations.

(** conversion of a number to int, as in optParser.cpp:18 *)
Definition to_int32 (z : Z) : Z := ((z + 2147483648) mod 4294967296 - 2147483648)%Z.

(** optParser.h:52-54 the data members *)
Record opts : Type := mkO { o_lib : bytes; o_op : bytes; o_params : bytes }.

(** optParser.cpp:29, 32, 35 std::string::assign(arg, len); a negative int becomes a huge size_t *)
Definition assign (arg : bytes) (len : Z) : outcome bytes :=
  if (len <? 0)%Z then Throw StdLengthError else Ret (firstn (Z.to_nat len) arg).

(** optParser.cpp:16-47 the loop over the remaining arguments and the final check; also the data members left *)
Fixpoint opt_loop (args : list bytes) (eoo : bool) (count : Z) (o : opts) : outcome (bool * opts) :=
  match args with
  | [] => Ret (negb (count <? 3)%Z, o)                                  (* 43-47 *)
  | arg :: rest =>
      let len := to_int32 (Z.of_nat (length arg)) in                     (* 18 int len = strlen(arg) *)
      if (beqb (nth 0 arg NUL) x2d && negb eoo)%bool then                (* 19 *)
        if ((len =? 2)%Z && beqb (nth 1 arg NUL) x2d)%bool               (* 20 *)
        then opt_loop rest true count o
        else opt_loop rest eoo count o
      else
        let count := (count + 1)%Z in                                    (* 27 *)
        if (count =? 1)%Z then
          s <- assign arg len ;; opt_loop rest eoo count (mkO s (o_op o) (o_params o))
        else if (count =? 2)%Z then
          s <- assign arg len ;; opt_loop rest eoo count (mkO (o_lib o) s (o_params o))
        else if (count =? 3)%Z then
          s <- assign arg len ;; opt_loop rest eoo count (mkO (o_lib o) (o_op o) s)
        else Ret (false, o)                                              (* 37-39 *)
  end.
(** optParser.cpp:12-48 Opt::parse on a new object; argv[0] is skipped *)
Definition opt_parse (argv : list bytes) : outcome (bool * opts) := opt_loop (tl argv) false 0 (mkO [] [] []).

(** a heap block with the function that allocated it:
    eni.h:24, 32 return one, eni_gas.cpp:38 and eni_run.cpp:38 release it *)
Inductive allocator : Set := Malloc | New.
Record block : Type := mkB { b_alloc : allocator; b_content : bytes }.
(** an operation's C function, ceni.h:14 *)
Definition c_function : Type := bytes -> outcome (option block).

(** the dynamic loader: eni_gas.cpp:27, 30 and eni_run.cpp:27, 30 dlopen and dlsym *)
Record loader : Type := mkLd {
  handle : Type;
  dlopen : bytes -> option handle;
  dlsym : handle -> bytes -> option c_function
}.

(** the suffixes _gas and _run, eni_gas.cpp:30 *)
Definition gas_suffix : bytes := [x5f; x67; x61; x73].
(** eni_run.cpp:30 *)
Definition run_suffix : bytes := [x5f; x72; x75; x6e].

(** *gas, a uint64_t, least significant byte first; eni_gas.cpp:37 *)
Fixpoint le_number (b : bytes) : N :=
  match b with
  | [] => 0%N
  | x :: b' => (bval x + 256 * le_number b')%N
  end.
(** eni_gas.cpp:37 the eight bytes must be in the block *)
Definition read_u64 (b : block) : outcome N :=
  if Nat.leb 8 (length (b_content b)) then Ret (le_number (firstn 8 (b_content b))) else UB OutOfBounds.
(** cout << str, eni_run.cpp:37 *)
Definition read_cstr (b : block) : outcome bytes :=
  if existsb (fun c => beqb c NUL) (b_content b) then Ret (cstr (b_content b)) else UB OutOfBounds.

(** delete p and free(p).  [strict]: the language's rule, memory is released with the function matching its
    allocation; otherwise operator delete is free, as in the usual implementations.
    eni_gas.cpp:38, eni_run.cpp:38. *)
Definition dealloc (strict : bool) (how : allocator) (b : block) : outcome unit :=
  match strict, how, b_alloc b with
  | true, New, Malloc => UB WrongDealloc
  | true, Malloc, New => UB WrongDealloc
  | _, _, _ => Ret tt
  end.

(** eni_gas.cpp:18-40 main: the exit status and the standard output *)
Definition main_gas (strict : bool) (ld : loader) (argv : list bytes) : outcome (Z * bytes) :=
  '(ok, o) <- opt_parse argv ;;
  if negb ok then Ret (2%Z, []) else                                     (* 22-25 *)
  match dlopen ld (o_lib o) with
  | None => Ret (3%Z, [])                                                (* 28 *)
  | Some h =>
      match dlsym ld h (o_op o ++ gas_suffix) with
      | None => Ret (4%Z, [])                                            (* 31 *)
      | Some f =>
          p <- f (o_params o) ;;
          match p with
          | None => Ret (5%Z, [])                                        (* 34 *)
          | Some b =>
              g <- read_u64 b ;;
              _ <- dealloc strict New b ;;                               (* 38 delete gas *)
              Ret (0%Z, dec_text g ++ [x0a])
          end
      end
  end.

(** eni_run.cpp:18-40 main *)
Definition main_run (strict : bool) (ld : loader) (argv : list bytes) : outcome (Z * bytes) :=
  '(ok, o) <- opt_parse argv ;;
  if negb ok then Ret (1%Z, []) else                                     (* 22-25 *)
  match dlopen ld (o_lib o) with
  | None => Ret (3%Z, [])
  | Some h =>
      match dlsym ld h (o_op o ++ run_suffix) with
      | None => Ret (4%Z, [])
      | Some f =>
          p <- f (o_params o) ;;
          match p with
          | None => Ret (5%Z, [])
          | Some b =>
              s <- read_cstr b ;;
              _ <- dealloc strict Malloc b ;;                            (* 38 free(str) *)
              Ret (0%Z, s ++ [x0a])
          end
      end
  end.

(** eni.h:17-33 the functions ENI_GAS and ENI_RUN define for a class, with the blocks they return *)
Definition eni_gas_fn (c : opclass) (lay : layout) : c_function :=
  fun buf => g <- c_gas c lay buf ;; Ret (Some (mkB Malloc (le32enc (g mod 2^32) ++ le32enc (g / 2^32)))).
(** eni.h:27-33 *)
Definition eni_run_fn (c : opclass) (lay : layout) : c_function :=
  fun buf => r <- c_run c lay buf ;; Ret (match r with None => None | Some t => Some (mkB Malloc (t ++ [NUL])) end).

(** a system with one library: [path] holds the operations [ops]; dlsym of eni_gas.cpp:30, eni_run.cpp:30 *)
Fixpoint find_symbol (lay : layout) (ops : list (bytes * opclass)) (name : bytes) : option c_function :=
  match ops with
  | [] => None
  | (n, c) :: ops' =>
      if bytes_eqb name (n ++ gas_suffix) then Some (eni_gas_fn c lay)
      else if bytes_eqb name (n ++ run_suffix) then Some (eni_run_fn c lay)
      else find_symbol lay ops' name
  end.
(** dlopen of eni_gas.cpp:27, eni_run.cpp:27 *)
Definition one_library (lay : layout) (path : bytes) (ops : list (bytes * opclass)) : loader :=
  mkLd unit (fun p => if bytes_eqb p path then Some tt else None) (fun _ name => find_symbol lay ops name).
