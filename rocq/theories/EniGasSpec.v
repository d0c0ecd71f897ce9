(** What the gas of a call pays for. *)
From Verif Require Import Base JsonModel EniModel.
From Coq Require Import List NArith.

(** When the gas of a call is [g] and its answer is [t], then [t] has at most [g] characters and 68 more (as many as the
    text of a hash has).  Answers of 2^60 characters, which no machine holds, are left out. *)
Definition answer_paid (c : opclass) : Prop :=
  forall lay buf g t, c_gas c lay buf = Ret g -> c_run c lay buf = Ret (Some t) -> (N.of_nat (length t) < 2^60)%N ->
    (N.of_nat (length t) <= g + 68)%N.
