(** What eni_gas and eni_run write on standard error.  The operations of the library write nothing there themselves (none of
    the repository's does); the parser writes its message. *)
From Coq Require Import String.
From Verif Require Import Base JsonModel EniModel CliModel.
From Coq Require Import List NArith ZArith Bool.
From Coq.Init Require Import Byte.
From Coq.Strings Require Import Byte.
Import ListNotations.
Local Open Scope list_scope.

(** a string literal of optParser.h:28-46 as bytes *)
Definition B (s : string) : bytes := list_byte_of_string s.
(** optParser.h:30-45 std::endl *)
Definition endl : bytes := [x0a].
(** optParser.h:31-44 the tab in the literals *)
Definition tab : bytes := [x09].

(** optParser.h:28-46 Opt::help *)
Definition help (prog desc : bytes) : bytes :=
  B "NAME" ++ endl ++ tab ++ prog ++ B " - " ++ desc ++ endl ++ endl ++
  B "SYNOPSIS" ++ endl ++ tab ++ prog ++ B " <LIBPATH> <OP> <JSON>" ++ endl ++ endl ++
  B "DESCRIPTION" ++ endl ++ tab ++ B "LIBPATH" ++ endl ++ tab ++ tab ++ B "path to the shared library" ++ endl ++ endl ++
  tab ++ B "OP" ++ endl ++ tab ++ tab ++ B "name of the ENI operation" ++ endl ++ endl ++
  tab ++ B "JSON" ++ endl ++ tab ++ tab ++ B "parameters passed to the operation in JSON format" ++ endl ++ endl.

(** the part of both main functions that writes: eni_gas.cpp:20-33, eni_run.cpp:20-33.  In the operation, the constructor of
    EniBase (eni.cpp:15-21) runs the parser on the C string. *)
Definition main_stderr (prog desc suffix : bytes) (lay : layout) (path : bytes) (ops : list (bytes * opclass)) (argv : list bytes)
  : outcome bytes :=
  '(ok, o) <- opt_parse argv ;;
  if negb ok then Ret (help prog desc) else
  if bytes_eqb (o_lib o) path then
    match find_symbol lay ops (o_op o ++ suffix) with
    | None => Ret []
    | Some _ => m <- parse_stderr lay (cstr (o_params o)) ;; Ret (B m)
    end
  else Ret [].

(** eni_run.cpp:20-21 *)
Definition run_stderr : layout -> bytes -> list (bytes * opclass) -> list bytes -> outcome bytes :=
  main_stderr (B "eni_run") (B "run the ENI operation and print the result in JSON format") run_suffix.
(** eni_gas.cpp:20-21 *)
Definition gas_stderr : layout -> bytes -> list (bytes * opclass) -> list bytes -> outcome bytes :=
  main_stderr (B "eni_gas") (B "the estimated gas cost when running the ENI operation") gas_suffix.
