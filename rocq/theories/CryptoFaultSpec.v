(** What calls of the RSA operations answer, and what they leave allocated, when memory is refused. *)
From Verif Require Import Base JsonModel JsonSpec EniModel CryptoModel CryptoHeapModel CryptoHeapSpec.
From Coq Require Import List NArith ZArith Bool.
Import ListNotations.

Section Fates.
  (** whether the [n]-th request gets its memory *)
  Variable gets : nat -> bool.

  (** how a call on accepted arguments fares: as with enough memory; without the buffer; without the memory OpenSSL
      needs for the operation itself *)
  Inductive luck : Type := Fine | NoBuffer | NoWork.
  (** getGas asks for nothing; start asks for a buffer, and if it gets that OpenSSL asks *)
  Fixpoint fates (n : nat) (calls : list ecall) : list (ecall * luck) :=
    match calls with
    | [] => []
    | GetGas :: calls' => (GetGas, Fine) :: fates n calls'
    | Start :: calls' =>
        if gets n then (Start, if gets (S n) then Fine else NoWork) :: fates (S (S n)) calls'
        else (Start, NoBuffer) :: fates (S n) calls'
    end.
End Fates.

(** the calls that have all they need *)
Fixpoint fine (l : list (ecall * luck)) : list ecall :=
  match l with
  | [] => []
  | (c, Fine) :: l' => c :: fine l'
  | _ :: l' => fine l'
  end.
(** [answers] to these, and what the others see *)
Fixpoint weave (l : list (ecall * luck)) (answers : list eanswer) : list eanswer :=
  match l with
  | [] => []
  | (_, NoBuffer) :: l' => Threw StdBadAlloc :: weave l' answers
  | (_, NoWork) :: l' => ResultIs None :: weave l' answers
  | (_, Fine) :: l' =>
      match answers with
      | [] => []
      | a :: answers' => a :: weave l' answers'
      end
  end.
(** buffers got *)
Definition got (l : list (ecall * luck)) : nat :=
  length (filter (fun x => match x with (Start, Fine) | (Start, NoWork) => true | _ => false end) l).

(** what a call answers whose arguments are refused: 1500 gas, no result *)
Definition refusal (c : ecall) : eanswer := match c with GetGas => GasIs 1500 | Start => ResultIs None end.

(** an answer of a call of a C function that tells that memory was refused *)
Definition admits (c : ecall) (a : eanswer) : Prop := a = refusal c \/ (c = Start /\ a = Threw StdBadAlloc).

(** of these calls, those that were given arguments and threw *)
Definition threw_with_arguments (l : list (rcall * list ast * eanswer)) (answers : list eanswer) : nat :=
  length (filter (fun x => match x with ((_, _ :: _, _), Threw _) => true | _ => false end) (combine l answers)).
