(** Properties C85 and C86: what json::Parser writes to std::cerr about a text it rejects.

    JsonFaultSpec.v says what is wrong with a text; the grammar of JsonSpec.v says which texts are right. *)
From Coq Require Import String.
From Verif Require Import Base JsonSpec JsonFaultSpec JsonModel JsonDenotes JsonProof2 JsonProof3 JsonFaultProof JsonProps.
From Coq Require Import List NArith ZArith Bool Lia.
From Coq.Init Require Import Byte.
From Coq.Strings Require Import Byte.
Import ListNotations.
Local Open Scope list_scope.

(** ** C85: one message, about the first thing wrong *)

(** In every layout: nothing is written about an accepted text, and about a rejected text exactly the
    message of its fault, the literals that cannot be read counting as wrong. *)
Theorem C85_message_any_layout :
  forall lay s, (N.of_nat (length s) < 2^28)%N ->
    exists ok v msg,
      parse lay s = Ret (ok, v) /\ parse_stderr lay s = Ret msg /\
      (ok = true <-> msg = EmptyString) /\
      (forall m, bad_val (readable lay) s m <-> ok = false /\ m = msg).
Proof. exact message_exactly. Qed.
Print Assumptions C85_message_any_layout.

(** The documented grammar, when the literals lie below the end of the text.  Missing: the other
    layouts (see the refutation). *)
Theorem C85_message_partial :
  forall lay s, (N.of_nat (length s) < 2^28)%N -> good_layout lay ->
    exists ok v msg,
      parse lay s = Ret (ok, v) /\ parse_stderr lay s = Ret msg /\
      (ok = true <-> msg = EmptyString) /\
      (forall m, bad_val documented s m <-> ok = false /\ m = msg).
Proof. exact message_documented. Qed.
Print Assumptions C85_message_partial.

(** With the literals above the text, a text with nothing wrong is complained about. *)
Theorem C85_message_refuted :
  exists lay s, parse_stderr lay s = Ret "expected 'true'"%string /\ forall m, ~ bad_val documented s m.
Proof.
  exists high, (T "true"). split; [vm_compute; reflexivity|]. intros m Hm. eapply bad_no_value; [exact Hm|].
  apply (G_bool documented [] true []); [constructor|reflexivity].
Qed.
Print Assumptions C85_message_refuted.

(** No text has two faults, and none has a fault and a value. *)
Theorem C85_fault_unique :
  forall s m, bad_val documented s m ->
    (forall a r, ~ gval documented s a r) /\ (forall m', bad_val documented s m' -> m' = m).
Proof.
  intros s m H. split; [exact (bad_no_value _ _ _ H)|]. intros m' H'. exact (bad_unique _ _ _ _ H' H).
Qed.
Print Assumptions C85_fault_unique.

Definition says (s : bytes) : outcome string := parse_stderr low s.
Example C85_example :
  map says
    [T " "; T "[1,]"; T "[-x]"; T "[tru]"; T "[faLse]"; q ++ T "abc"; q ++ T "a\x" ++ q; q ++ T "a\u00g0" ++ q; T "[1 2]"; T "{}";
     T "{1:2}"; T "{" ++ q ++ T "a" ++ q ++ T " 1}"; T "{" ++ q ++ T "a" ++ q ++ T ":1,}"; T "{" ++ q ++ T "a" ++ q ++ T ":1]"]
  = map (fun m => Ret m)
    ["expected value"; "expected value"; "expected digits after -"; "expected 'true'"; "expected 'false'"; "unterminated string";
     "invalid escape sequence"; "invalid code number"; "expected ']' or ','"; ""; "expected key string"; "expected ':'";
     "expected key string"; "expected '}' or ','"]%string.
Proof. vm_compute. reflexivity. Qed.
Example C85_example_fault : bad_val documented (T "[1 2]") "expected ']' or ','"%string.
Proof.
  destruct (C85_message_partial low (T "[1 2]")) as (ok & v & msg & H1 & H2 & _ & H4); [vm_compute; reflexivity|vm_compute; auto|].
  vm_compute in H1, H2. injection H1 as <- <-. injection H2 as <-. now apply H4.
Qed.

(** ** C86: a rejected text is unfinished or beyond repair *)

(** In any layout, and any other in which the same booleans can be read: either some continuation, not much longer than
    the text, makes it a text of the language (and is accepted in silence, if it is short enough for the parser); or
    every continuation is rejected, with the same message. *)
Theorem C86_final :
  forall lay s m, (N.of_nat (length s) < 2^28)%N ->
    parse lay s = Ret (false, JUndef) -> parse_stderr lay s = Ret m ->
    (exists u a, length u <= length s + 7 /\ gval (readable lay) (s ++ u) a [] /\
       forall lay', (forall b, readable lay' b = readable lay b) -> (N.of_nat (length (s ++ u)) < 2^28)%N ->
         exists v, parse lay' (s ++ u) = Ret (true, v) /\ parse_stderr lay' (s ++ u) = Ret EmptyString) \/
    (forall u lay', (forall b, readable lay' b = readable lay b) -> (N.of_nat (length (s ++ u)) < 2^28)%N ->
       parse lay' (s ++ u) = Ret (false, JUndef) /\ parse_stderr lay' (s ++ u) = Ret m).
Proof. exact message_final. Qed.
Print Assumptions C86_final.

(** The same of the language, whichever literals belong to it, for texts of every length. *)
Theorem C86_grammar :
  forall lits s m, bad_val lits s m ->
    (exists u a, gval lits (s ++ u) a [] /\ length u <= length s + 7) \/
    (forall u, bad_val lits (s ++ u) m).
Proof. exact fault_final. Qed.
Print Assumptions C86_grammar.

(** one that can be finished, with the same message as one that cannot *)
Example C86_example :
  says (T "[[1") = Ret "expected ']' or ','"%string /\ says (T "[[1" ++ T "]]") = Ret ""%string /\
  says (T "[[1:") = Ret "expected ']' or ','"%string /\ says (T "[[1:" ++ T "]]") = Ret "expected ']' or ','"%string.
Proof. vm_compute. repeat split. Qed.
(** eight characters to finish four *)
Example C86_example_long : says (T "{" ++ q ++ T "\u") = Ret "invalid code number"%string /\
  says (T "{" ++ q ++ T "\u" ++ T "0000" ++ q ++ T ":0}") = Ret ""%string.
Proof. vm_compute. repeat split. Qed.
(** where a literal cannot be read it is beyond repair *)
Example C86_example_layout : let lay := mkL 0 100 200 in
  parse_stderr lay (T "[t") = Ret "expected 'true'"%string /\ parse_stderr lay (T "[true]") = Ret "expected 'true'"%string /\
  says (T "[t") = Ret "expected 'true'"%string /\ says (T "[true]") = Ret ""%string.
Proof. vm_compute. repeat split. Qed.
