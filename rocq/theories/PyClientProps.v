(** Property C105: the Python client of the JSON tests.

    [command_line repr tool path name v]: what the client runs for the input [v]; [repr] is how Python writes floating-point numbers. *)
From Coq Require Import String.
From Verif Require Import Base JsonSpec JsonModel JsonDenotes JsonProof4 JsonStdSpec JsonStdProof PyClientModel PyClientProof EniModel CliSpec CliModel JsonExSpec JsonExModel PyClientProof2.
From Coq Require Import List NArith ZArith Bool Lia.
From Coq.Init Require Import Byte.
From Coq.Strings Require Import Byte.
Import ListNotations.
Local Open Scope list_scope.

Definition T (s : string) : bytes := list_byte_of_string s.
Definition q : bytes := [x22].
Definition low : layout := mkL 1000 10 20.

(** What is sent is a standard text of the input, of visible ASCII characters and spaces. *)
Theorem C105_sent :
  forall repr v, unicode v -> no_reals v ->
    rval any_code (dumps repr v) v [] /\ Forall (fun b => (32 <= bval b < 127)%N) (dumps repr v).
Proof. intros repr v Hu Hn. destruct (dumps_sent repr v Hu Hn) as (H1 & _ & H2). auto. Qed.
Print Assumptions C105_sent.

(** The operation is given exactly the input if and only if all characters in it are ASCII. *)
Theorem C105_received :
  forall repr lay v, unicode v -> supported v -> good_layout lay -> (N.of_nat (length (dumps repr v)) < 2^28)%N ->
    exists j a, parse lay (dumps repr v) = Ret (true, j) /\ gval documented (dumps repr v) a [] /\ (short_keys a -> denotes j a) /\
                (a = in_utf8 v <-> all_ascii v).
Proof. exact client_received. Qed.
Print Assumptions C105_received.

(** An input with None anywhere in it is refused. *)
Theorem C105_none :
  forall repr lay v, unicode v -> no_reals v -> ~ supported v -> (N.of_nat (length (dumps repr v)) < 2^28)%N ->
    parse lay (dumps repr v) = Ret (false, JUndef).
Proof. exact client_none. Qed.
Print Assumptions C105_none.

(** Asked to reverse an ASCII string, the client returns the string reversed and nothing else.  Missing: other strings, of which
    C105_reverse_refuted says that the answer is wrong. *)
Theorem C105_reverse_partial :
  forall repr strict lay path ops s, (N.of_nat (length path) < 2^31)%N -> is_option path = false ->
    NoDup (map fst ops) -> In (T "reverse", reverse_op) ops -> Forall scalar s -> (N.of_nat (length s) < 2^24)%N -> Forall ascii s ->
    forall u, answers (main_run strict (one_library lay path ops) (command_line repr (T "eni_run") path (T "reverse") (VArr [VStr s]))) u <->
              u = VArr [VStr (rev s)].
Proof.
  intros repr strict lay path ops s Hp Ho Hd Hi Hs Hl Ha u. destruct (client_reverse repr strict lay path ops s Hp Ho Hd Hi Hs Hl) as (out & R & H & _).
  rewrite <- (H Ha u). split; [intros (out' & R' & L)|intros L; exists out; auto]. unfold T in R'. rewrite R in R'. injection R' as <-. exact L.
Qed.
Print Assumptions C105_reverse_partial.

(** Any string with another character does not come back reversed, although the tool ends with status 0. *)
Theorem C105_reverse_refuted :
  forall repr strict lay path ops s, (N.of_nat (length path) < 2^31)%N -> is_option path = false ->
    NoDup (map fst ops) -> In (T "reverse", reverse_op) ops -> Forall scalar s -> (N.of_nat (length s) < 2^24)%N -> ~ Forall ascii s ->
    exists out, main_run strict (one_library lay path ops) (command_line repr (T "eni_run") path (T "reverse") (VArr [VStr s])) = Ret (0%Z, out) /\
                ~ loads out (VArr [VStr (rev s)]).
Proof.
  intros repr strict lay path ops s Hp Ho Hd Hi Hs Hl Ha. destruct (client_reverse repr strict lay path ops s Hp Ho Hd Hi Hs Hl) as (out & R & _ & H). exists out. auto.
Qed.
Print Assumptions C105_reverse_refuted.

(** a word as a Python string *)
Definition word (s : string) : list N := map bval (T s).

(** The tests of parseString, in general: a string literal anywhere in an ASCII text ([s] is the literal without its opening
    quotation mark, [cs] what it means).  The client returns exactly the string if it is ASCII (it may be written with escapes);
    otherwise it does not return the string. *)
Theorem C105_parseString :
  forall jsmn to_int inner, (forall z, is_int z -> to_int z = z) ->
  forall repr strict lay path ops name pre s post cs,
    (N.of_nat (length path) < 2^31)%N -> is_option path = false -> (N.of_nat (length name) < 2^31)%N -> is_option name = false ->
    NoDup (map fst ops) -> In (name, json_op jsmn to_int inner) ops ->
    Forall (fun c => 0 < c < 128)%N (pre ++ 34%N :: s) -> Forall ascii post -> rchars any_code (map byte_of_N s) cs [] ->
    let input := VArr [VStr (word "parseString"); VStr (pre ++ (34%N :: s) ++ post);
                       VInt (Z.of_nat (length pre)); VInt (Z.of_nat (length pre + length (34%N :: s)))] in
    (N.of_nat (length (dumps repr input)) < 2^28)%N ->
    exists out, main_run strict (one_library lay path ops) (command_line repr (T "eni_run") path name input) = Ret (0%Z, out) /\
      (Forall ascii cs -> forall u, loads out u <-> u = VArr [VStr cs]) /\
      (~ Forall ascii cs -> ~ loads out (VArr [VStr cs])).
Proof. exact client_parse_string. Qed.
Print Assumptions C105_parseString.

(** U+0141 comes back as the letter A *)
Example C105_example :
  let lib := one_library low (T "lib.so") [(T "reverse", reverse_op)] in
  let ask v := command_line (fun _ _ => []) (T "eni_run") (T "lib.so") (T "reverse") v in
  ask (VArr [VStr [97; 10; 98]%N; VObj [([107]%N, VArr [VBool true; VInt (-7)])]]) =
    [T "eni_run"; T "lib.so"; T "reverse"; T "[" ++ q ++ T "a\nb" ++ q ++ T ", {" ++ q ++ T "k" ++ q ++ T ": [true, -7]}]"] /\
  main_run true lib (ask (VArr [VStr [97; 10; 98]%N])) = Ret (0%Z, T "[" ++ q ++ T "b\u000Aa" ++ q ++ T "]" ++ [x0a]) /\
  ask (VArr [VStr [128512]%N]) = [T "eni_run"; T "lib.so"; T "reverse"; T "[" ++ q ++ T "\ud83d\ude00" ++ q ++ T "]"] /\
  (let doc := word "??" ++ [34]%N ++ word "a\u0042" ++ [34]%N ++ word "?" in
   main_run true (one_library low (T "lib.so") [(T "json", json_op (fun _ _ _ => Ret (0%Z, [])) (fun z => z) (fun _ => low))])
     (command_line (fun _ _ => []) (T "eni_run") (T "lib.so") (T "json") (VArr [VStr (word "parseString"); VStr doc; VInt 2; VInt 11])) =
   Ret (0%Z, T "[" ++ q ++ T "aB" ++ q ++ T "]" ++ [x0a])) /\
  main_run true lib (ask (VArr [VStr [321]%N])) = Ret (0%Z, T "[" ++ q ++ T "A" ++ q ++ T "]" ++ [x0a]).
Proof. vm_compute. auto 10. Qed.
