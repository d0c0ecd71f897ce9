(** Property C87: what the command line tools say about a failure.

    Arguments are C strings shorter than 2^31 bytes, the parameters shorter than 2^28.  The library is made with
    ENI_C_INTERFACE and its operations write nothing on standard error themselves. *)
From Coq Require Import String.
From Verif Require Import Base JsonSpec JsonFaultSpec JsonModel JsonDenotes JsonProps EniModel EniProps CliSpec CliModel CliProof CliErrModel CliErrProof.
From Coq Require Import List NArith ZArith Bool Lia.
From Coq.Init Require Import Byte.
From Coq.Strings Require Import Byte.
Import ListNotations.
Local Open Scope list_scope.

(** A wrong number of arguments is answered with the usage text. *)
Theorem C87_usage :
  forall strict lay path ops argv, (forall a, In a (tl argv) -> (N.of_nat (length a) < 2^31)%N) ->
    (forall lib op params, ~ positionals (tl argv) [lib; op; params]) ->
    (main_run strict (one_library lay path ops) argv = Ret (1%Z, []) /\
     exists more, run_stderr lay path ops argv =
       Ret (T "NAME" ++ [x0a; x09] ++ T "eni_run - run the ENI operation and print the result in JSON format" ++ [x0a; x0a] ++
            T "SYNOPSIS" ++ [x0a; x09] ++ T "eni_run <LIBPATH> <OP> <JSON>" ++ x0a :: more)) /\
    (main_gas strict (one_library lay path ops) argv = Ret (2%Z, []) /\
     exists more, gas_stderr lay path ops argv =
       Ret (T "NAME" ++ [x0a; x09] ++ T "eni_gas - the estimated gas cost when running the ENI operation" ++ [x0a; x0a] ++
            T "SYNOPSIS" ++ [x0a; x09] ++ T "eni_gas <LIBPATH> <OP> <JSON>" ++ x0a :: more)).
Proof.
  intros strict lay path ops argv Hs Hn. apply in_short in Hs. split; split.
  - now apply run_status.
  - unfold run_stderr. rewrite err_usage by auto. eexists. reflexivity.
  - now apply gas_status.
  - unfold gas_stderr. rewrite err_usage by auto. eexists. reflexivity.
Qed.
Print Assumptions C87_usage.

(** Parameters that are no text of the language: the message of C85, and status 87. *)
Theorem C87_message :
  forall strict lay path ops argv name c params m, (forall a, In a (tl argv) -> (N.of_nat (length a) < 2^31)%N) ->
    NoDup (map fst ops) -> In (name, c) ops -> positionals (tl argv) [path; name; params] ->
    ~ In NUL params -> (N.of_nat (length params) < 2^28)%N -> bad_val (readable lay) params m ->
    (main_run strict (one_library lay path ops) argv = Exit 87 /\ run_stderr lay path ops argv = Ret (T m)) /\
    (main_gas strict (one_library lay path ops) argv = Exit 87 /\ gas_stderr lay path ops argv = Ret (T m)).
Proof.
  intros strict lay path ops argv name c params m Hs. apply in_short in Hs. exact (err_message strict lay path ops argv name c params m Hs).
Qed.
Print Assumptions C87_message.

(** Every other failure is silent: no such library (3), no such operation (4), arguments the operation refuses (5). *)
Theorem C87_silent :
  forall strict lay path ops argv lib op params, (forall a, In a (tl argv) -> (N.of_nat (length a) < 2^31)%N) ->
    positionals (tl argv) [lib; op; params] -> ~ In NUL params -> (N.of_nat (length params) < 2^28)%N ->
    forall n out,
      (main_run strict (one_library lay path ops) argv = Ret (n, out) -> (exists a r, gval (readable lay) params a r) \/ n = 3%Z \/ n = 4%Z ->
       run_stderr lay path ops argv = Ret []) /\
      (main_gas strict (one_library lay path ops) argv = Ret (n, out) -> (exists a r, gval (readable lay) params a r) \/ n = 3%Z \/ n = 4%Z ->
       gas_stderr lay path ops argv = Ret []).
Proof.
  intros strict lay path ops argv lib op params Hs Hp Hz Hl n out. apply in_short in Hs. split; intros E H.
  - eapply err_silent_run; eauto.
    destruct H as [H|H]; [auto|]. destruct (run_status strict (one_library lay path ops) argv Hs) as [R _]. specialize (R _ _ _ Hp). cbn [one_library dlopen dlsym] in R.
    destruct (bytes_eqb_spec lib path) as [->|Hne]; [|auto]. destruct (find_symbol lay ops (op ++ run_suffix)) as [f|]; [|auto]. exfalso.
    rewrite R in E. destruct (f params) as [[b|]| | | |]; try discriminate; cbn [bind] in E; [|injection E as <- _; destruct H; discriminate].
    destruct (read_cstr b); try discriminate. cbn [bind] in E. destruct (dealloc strict Malloc b); try discriminate. cbn [bind] in E. injection E as <- _. destruct H; discriminate.
  - eapply err_silent_gas; eauto.
    destruct H as [H|H]; [auto|]. destruct (gas_status strict (one_library lay path ops) argv Hs) as [R _]. specialize (R _ _ _ Hp). cbn [one_library dlopen dlsym] in R.
    destruct (bytes_eqb_spec lib path) as [->|Hne]; [|auto]. destruct (find_symbol lay ops (op ++ gas_suffix)) as [f|]; [|auto]. exfalso.
    rewrite R in E. destruct (f params) as [[b|]| | | |]; try discriminate; cbn [bind] in E; [|injection E as <- _; destruct H; discriminate].
    repeat match type of E with bind ?x _ = _ => destruct x; try discriminate; cbn [bind] in E end. injection E as <- _. destruct H; discriminate.
Qed.
Print Assumptions C87_silent.

Theorem C87_says_why_refuted :
  exists lay path ops argv n, n <> 0%Z /\ main_run true (one_library lay path ops) argv = Ret (n, []) /\ run_stderr lay path ops argv = Ret [].
Proof.
  exists low, (T "lib.so"), [], [T "eni_run"; T "libb.so"; T "reverse"; T "[]"], 3%Z. split; [discriminate|]. split; vm_compute; reflexivity.
Qed.
Print Assumptions C87_says_why_refuted.

Definition lib1 : list (bytes * opclass) := [(T "twice", twice); (T "reverse", reverse_op)].
Example C87_example :
  run_stderr low (T "lib.so") lib1 [T "eni_run"; T "lib.so"; T "reverse"; T "[" ++ q ++ T "abc]"] = Ret (T "unterminated string") /\
  main_run true (one_library low (T "lib.so") lib1) [T "eni_run"; T "lib.so"; T "reverse"; T "[" ++ q ++ T "abc]"] = Exit 87 /\
  run_stderr low (T "lib.so") lib1 [T "eni_run"; T "lib"; T "reverse"; T "[]"] = Ret [] /\
  main_run true (one_library low (T "lib.so") lib1) [T "eni_run"; T "lib"; T "reverse"; T "[]"] = Ret (3%Z, []) /\
  gas_stderr low (T "lib.so") lib1 [T "eni_gas"; T "lib.so"; T "add"; T "[]"] = Ret [] /\
  run_stderr low (T "lib.so") lib1 [T "eni_run"; T "lib.so"; T "twice"; T "--"; T "[-3]"] = Ret [] /\
  main_run true (one_library low (T "lib.so") lib1) [T "eni_run"; T "lib.so"; T "twice"; T "--"; T "[-3]"] = Ret (5%Z, []).
Proof. vm_compute. repeat split. Qed.
