(** Property C45: the command line tools eni_gas and eni_run.

    [argv] holds the program name and the arguments, each shorter than 2^31 bytes.  The loader is arbitrary.
    A run's observable effects are the exit status and the standard output. *)
From Coq Require Import String.
From Verif Require Import Base JsonModel EniModel EniProps CliSpec CliModel CliProof.
From Coq Require Import List NArith ZArith Bool Lia.
From Coq.Init Require Import Byte.
From Coq.Strings Require Import Byte.
Import ListNotations.
Local Open Scope list_scope.

(** ** Arguments *)
Theorem C45_arguments :
  forall argv, (forall a, In a (tl argv) -> (N.of_nat (length a) < 2^31)%N) ->
    (forall lib op params, opt_parse argv = Ret (true, mkO lib op params) <-> positionals (tl argv) [lib; op; params]) /\
    ((exists o, opt_parse argv = Ret (false, o)) <-> exists pos, positionals (tl argv) pos /\ length pos <> 3).
Proof. exact cli_arguments. Qed.
Print Assumptions C45_arguments.

(** ** Exit status of eni_run, [strict] or not *)
Theorem C45_run_success :
  forall strict ld argv out, (forall a, In a (tl argv) -> (N.of_nat (length a) < 2^31)%N) ->
    (main_run strict ld argv = Ret (0%Z, out) <->
     exists lib op params h f b text,
       positionals (tl argv) [lib; op; params] /\ dlopen ld lib = Some h /\ dlsym ld h (op ++ T "_run") = Some f /\
       f params = Ret (Some b) /\ (strict = true -> b_alloc b = Malloc) /\
       (exists rest, b_content b = text ++ NUL :: rest) /\ ~ In NUL text /\
       out = text ++ [x0a]).
Proof. exact cli_run_success. Qed.
Print Assumptions C45_run_success.

(** every other way for eni_run to end normally *)
Theorem C45_run_failure :
  forall strict ld argv n out, (forall a, In a (tl argv) -> (N.of_nat (length a) < 2^31)%N) ->
    main_run strict ld argv = Ret (n, out) -> n <> 0%Z ->
    out = [] /\
    ((n = 1%Z /\ forall lib op params, ~ positionals (tl argv) [lib; op; params]) \/
     exists lib op params, positionals (tl argv) [lib; op; params] /\
       ((n = 3%Z /\ dlopen ld lib = None) \/
        exists h, dlopen ld lib = Some h /\
          ((n = 4%Z /\ dlsym ld h (op ++ T "_run") = None) \/
           exists f, dlsym ld h (op ++ T "_run") = Some f /\ n = 5%Z /\ f params = Ret None))).
Proof. exact cli_run_failure. Qed.
Print Assumptions C45_run_failure.

(** ** Exit status of eni_gas where operator delete is free.  Missing: the language's own rule for delete, see
    [C45_gas_refuted]. *)
Theorem C45_gas_success_partial :
  forall ld argv out, (forall a, In a (tl argv) -> (N.of_nat (length a) < 2^31)%N) ->
    (main_gas false ld argv = Ret (0%Z, out) <->
     exists lib op params h f b g,
       positionals (tl argv) [lib; op; params] /\ dlopen ld lib = Some h /\ dlsym ld h (op ++ T "_gas") = Some f /\
       f params = Ret (Some b) /\
       (exists b0 b1 b2 b3 b4 b5 b6 b7 rest, b_content b = [b0; b1; b2; b3; b4; b5; b6; b7] ++ rest /\
          g = (bval b0 + 2^8 * bval b1 + 2^16 * bval b2 + 2^24 * bval b3 + 2^32 * bval b4 + 2^40 * bval b5 + 2^48 * bval b6 + 2^56 * bval b7)%N) /\
       out = dec_text g ++ [x0a]).
Proof. exact cli_gas_success. Qed.
Print Assumptions C45_gas_success_partial.

Theorem C45_gas_failure_partial :
  forall strict ld argv n out, (forall a, In a (tl argv) -> (N.of_nat (length a) < 2^31)%N) ->
    main_gas strict ld argv = Ret (n, out) -> n <> 0%Z ->
    out = [] /\
    ((n = 2%Z /\ forall lib op params, ~ positionals (tl argv) [lib; op; params]) \/
     exists lib op params, positionals (tl argv) [lib; op; params] /\
       ((n = 3%Z /\ dlopen ld lib = None) \/
        exists h, dlopen ld lib = Some h /\
          ((n = 4%Z /\ dlsym ld h (op ++ T "_gas") = None) \/
           exists f, dlsym ld h (op ++ T "_gas") = Some f /\ n = 5%Z /\ f params = Ret None))).
Proof. exact cli_gas_failure. Qed.
Print Assumptions C45_gas_failure_partial.

(** ** Both tools on a library made with ENI_C_INTERFACE *)
Theorem C45_library :
  forall strict lay path ops argv name c params, (forall a, In a (tl argv) -> (N.of_nat (length a) < 2^31)%N) ->
    NoDup (map fst ops) -> In (name, c) ops -> positionals (tl argv) [path; name; params] ->
    (forall text, c_run c lay params = Ret (Some text) -> main_run strict (one_library lay path ops) argv = Ret (0%Z, text ++ [x0a])) /\
    (c_run c lay params = Ret None -> main_run strict (one_library lay path ops) argv = Ret (5%Z, [])) /\
    (forall g, c_gas c lay params = Ret g -> (g < 2^64)%N -> main_gas false (one_library lay path ops) argv = Ret (0%Z, dec_text g ++ [x0a])).
Proof. exact cli_library. Qed.
Print Assumptions C45_library.

(** eni_gas deletes the block that ENI_GAS allocated with malloc: undefined behaviour on every success. *)
Theorem C45_gas_refuted :
  forall lay path ops argv name c params g, (forall a, In a (tl argv) -> (N.of_nat (length a) < 2^31)%N) ->
    NoDup (map fst ops) -> In (name, c) ops -> positionals (tl argv) [path; name; params] ->
    c_gas c lay params = Ret g -> (g < 2^64)%N ->
    main_gas true (one_library lay path ops) argv = UB WrongDealloc.
Proof. exact cli_gas_ub. Qed.
Print Assumptions C45_gas_refuted.

Definition example_args : list bytes := [T "eni_run"; T "-v"; T "lib.so"; T "--"; T "reverse"; T "[" ++ q ++ T "abc" ++ q ++ T "]"].
Example C45_example :
  positionals (tl example_args) [T "lib.so"; T "reverse"; T "[" ++ q ++ T "abc" ++ q ++ T "]"] /\
  main_run true (one_library low (T "lib.so") [(T "twice", twice); (T "reverse", reverse_op)]) example_args = Ret (0%Z, T "[" ++ q ++ T "cba" ++ q ++ T "]" ++ [x0a]) /\
  main_gas false (one_library low (T "lib.so") [(T "twice", twice); (T "reverse", reverse_op)]) example_args = Ret (0%Z, T "30" ++ [x0a]) /\
  main_gas true (one_library low (T "lib.so") [(T "twice", twice); (T "reverse", reverse_op)]) example_args = UB WrongDealloc /\
  main_run true (one_library low (T "lib.so") [(T "twice", twice)]) example_args = Ret (4%Z, []) /\
  main_run true (one_library low (T "other.so") []) example_args = Ret (3%Z, []) /\
  main_run true (one_library low (T "lib.so") []) [T "eni_run"; T "--"; T "-a"; T "b"] = Ret (1%Z, []) /\
  main_run true (one_library low (T "lib.so") [(T "twice", twice)]) [T "eni_run"; T "lib.so"; T "twice"; T "--"; T "[-3]"] = Ret (5%Z, []).
Proof.
  split; [apply (P_with [T "-v"; T "lib.so"] _); cbn; intuition discriminate|].
  split; [vm_compute; reflexivity|]. split; [vm_compute; reflexivity|]. split; [vm_compute; reflexivity|].
  split; [vm_compute; reflexivity|]. split; [vm_compute; reflexivity|]. split; vm_compute; reflexivity.
Qed.
