(** Property C104: a text of standard JSON is read as what it means there.

    [rval any_code s v r]: by RFC 8259 the text [s] is white space, a text of the value [v], and then [r]; [rval ascii s v r]: the
    same, and only characters below 128 are written as escapes with \u. *)
From Coq Require Import String.
From Verif Require Import Base JsonSpec JsonModel JsonDenotes JsonProof4 JsonStdSpec JsonStdProof PyClientProof JsonLaySpec JsonStdProof2.
From Coq Require Import List NArith ZArith Bool Lia.
From Coq.Init Require Import Byte.
From Coq.Strings Require Import Byte.
Import ListNotations.
Local Open Scope list_scope.

Definition T (s : string) : bytes := list_byte_of_string s.
Definition q : bytes := [x22].
Definition low : layout := mkL 1000 10 20.
Definition high : layout := mkL 1000 2000 2010.

(** The full claim would have [any_code] for [ascii] (and every layout); C104_standard_exact says which texts are missing. *)
Theorem C104_standard_partial :
  forall lay s v r, (N.of_nat (length s) < 2^28)%N -> good_layout lay -> rval ascii s v r -> supported v -> short_keys (in_utf8 v) ->
    exists j, parse lay s = Ret (true, j) /\ denotes j (in_utf8 v).
Proof. exact parse_std_ascii. Qed.
Print Assumptions C104_standard_partial.

(** Every standard text without null, fractions and exponents is accepted, up to the same place; and it is read as what it means
    exactly when it escapes only characters below 128. *)
Theorem C104_standard_exact :
  forall lay s v r, (N.of_nat (length s) < 2^28)%N -> good_layout lay -> rval any_code s v r -> supported v ->
    exists j a, parse lay s = Ret (true, j) /\ gval documented s a r /\ (short_keys a -> denotes j a) /\ (a = in_utf8 v <-> rval ascii s v r).
Proof. exact parse_std. Qed.
Print Assumptions C104_standard_exact.

(** The same in every layout, where the scanner may find no true or no false (C02): exactly the texts whose booleans it finds are accepted. *)
Theorem C104_standard_any_layout :
  forall lay s v r, (N.of_nat (length s) < 2^28)%N -> rval any_code s v r -> supported v ->
    ((forall b, occurs b (in_utf8 v) -> readable lay b = true) ->
       exists j a, parse lay s = Ret (true, j) /\ gval documented s a r /\ (short_keys a -> denotes j a) /\ (a = in_utf8 v <-> rval ascii s v r)) /\
    ((exists b, occurs b (in_utf8 v) /\ readable lay b = false) -> parse lay s = Ret (false, JUndef)).
Proof. exact parse_std_any. Qed.
Print Assumptions C104_standard_any_layout.

(** Standard texts with null, or with a fraction or exponent inside an array or object, are refused whole. *)
Theorem C104_unsupported_refused :
  forall lay s v r, (N.of_nat (length s) < 2^28)%N -> rval any_code s v r -> ~ supported v -> (forall m e, v <> VReal m e) ->
    parse lay s = Ret (false, JUndef).
Proof. exact parse_refused. Qed.
Print Assumptions C104_unsupported_refused.

(** But a number with fraction or exponent that stands alone is accepted as the integer in front of them. *)
Theorem C104_number_refuted :
  forall lay s m e r, (N.of_nat (length s) < 2^28)%N -> rval any_code s (VReal m e) r ->
    exists w sg ds r', s = w ++ sg ++ ds ++ r' /\ white w /\ In sg [[]; [x2d]] /\ whole ds /\ (exists c r'', r' = c :: r'' /\ In c [x2e; x65; x45]) /\
      exists j, parse lay s = Ret (true, j) /\ denotes j (AInt (signed sg (Z.of_N (decimal ds)))).
Proof. exact parse_real. Qed.
Print Assumptions C104_number_refuted.

(** And texts that are not standard are accepted: a control character between quotation marks. *)
Theorem C104_control_refuted :
  forall lay c, (bval c < 32)%N ->
    parse lay [x22; c; x22] = Ret (true, JStr [c]) /\ forall v r, ~ rval any_code [x22; c; x22] v r.
Proof. exact lenient. Qed.
Print Assumptions C104_control_refuted.

(** The way back: a printed value without objects whose strings are UTF-8 is a standard text of that value. *)
Theorem C104_printed :
  forall v j, simple j -> ast_of j = in_utf8 v -> supported v -> unicode v ->
    exists t, print j = Ret t /\ rval ascii t v [].
Proof. exact print_std_text. Qed.
Print Assumptions C104_printed.

(** UTF-8 is kept, an escaped letter above 127 becomes another; null and 1.5 in arrays are refused, 1.5 alone is 1. *)
Example C104_example :
  (let s := T "[" ++ q ++ [xc5; x81; x5c] ++ T "u0041" ++ q ++ T "]" in
   rval ascii s (VArr [VStr [321; 65]%N]) [] /\ parse high s = Ret (true, JArr [JStr [xc5; x81; x41]])) /\
  (let s := T "[" ++ q ++ [x5c] ++ T "u0141" ++ q ++ T "]" in
   rval any_code s (VArr [VStr [321]%N]) [] /\ parse high s = Ret (true, JArr [JStr [x41]])) /\
  (rval any_code (T "[1,null]") (VArr [VInt 1; VNull]) [] /\ parse high (T "[1,null]") = Ret (false, JUndef)) /\
  (rval any_code (T "-1.5e3") (VReal (-15) 2) [] /\ parse high (T "-1.5e3") = Ret (true, JInt (-1))) /\
  parse high (T "[1.5]") = Ret (false, JUndef) /\
  (readable high true = false /\ parse high (T "[true]") = Ret (false, JUndef) /\ parse low (T "[true]") = Ret (true, JArr [JBool true])).
Proof.
  assert (NE : number_ends []) by (intros c r E; discriminate E).
  split; [split|split; [split|split; [split|split; [split|split; [|split; [|split]]]]]]; try (vm_compute; reflexivity).
  - apply (R_arr ascii []); [constructor|]. apply (RE_last ascii _ _ []); [|constructor]. apply (R_str ascii []); [constructor|].
    apply (R_raw ascii 321%N); [left; reflexivity|discriminate|discriminate|discriminate|]. apply (R_code ascii (T "0041") 65%N); [|left; reflexivity|reflexivity|constructor].
    apply (Quad x30 x30 x34 x31 0 0 4 1); reflexivity.
  - apply (R_arr any_code []); [constructor|]. apply (RE_last any_code _ _ []); [|constructor]. apply (R_str any_code []); [constructor|].
    apply (R_code any_code (T "0141") 321%N); [|left; reflexivity|exact I|constructor]. apply (Quad x30 x31 x34 x31 0 1 4 1); reflexivity.
  - apply (R_arr any_code []); [constructor|]. apply (RE_cons any_code _ _ [] (T "null]")); [|constructor|].
    + apply (R_int any_code [] [] (T "1")); [constructor|cbn; auto|apply W_pos; [split; discriminate|discriminate|constructor]|].
      intros c r E. injection E as <- _. split; [intros [H1 H2]; vm_compute in H1, H2; congruence|cbn; intuition discriminate].
    + apply (RE_last any_code _ _ []); [|constructor]. apply (R_null any_code []). constructor.
  - apply (R_real any_code [] [x2d] [x31] (T ".5") (T "5") (T "e3") 3 []); auto; [constructor|cbn; auto|apply W_pos; [split; discriminate|discriminate|constructor]| | |discriminate].
    + apply (F_some x35 []). repeat constructor; discriminate.
    + apply (E_plus x65 [] x33 []); [cbn; auto|cbn; auto|repeat constructor; discriminate].
Qed.
