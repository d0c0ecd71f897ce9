(** Property C93: how often the parser reads the characters of a text. *)
From Coq Require Import String.
From Verif Require Import Base JsonModel JsonReadModel JsonReadProof.
From Coq Require Import List NArith ZArith Bool Lia.
From Coq.Init Require Import Byte.
From Coq.Strings Require Import Byte.
Import ListNotations.
Local Open Scope list_scope.

(** Whatever the text and wherever it lies, of the grammar or not: the reads are at most forty per byte and 75 more. *)
Theorem C93_reads :
  forall lay s, fst (parse_c lay s) <= 40 * length s + 75.
Proof. exact parse_costs. Qed.
Print Assumptions C93_reads.

(** The parser whose reads are counted is the parser of all other properties. *)
Theorem C93_same_parser :
  forall lay s, snd (parse_c lay s) = parse lay s.
Proof. exact parse_c_snd. Qed.
Print Assumptions C93_same_parser.

(** twenty arrays in each other, the same cut off, a lone digit and the empty text *)
Example C93_example :
  let lay := mkL 1000 10 20 in
  fst (parse_c lay (repeat x5b 20 ++ repeat x5d 20)) = 414 /\ parse_c lay (repeat x5b 20) = (328, Ret (false, JUndef)) /\
  parse_c lay [x31] = (30, Ret (true, JInt 1)) /\ parse_c lay [] = (28, Ret (false, JUndef)).
Proof. cbv zeta. split; [vm_compute; reflexivity|]. split; [vm_compute; reflexivity|]. split; vm_compute; reflexivity. Qed.
