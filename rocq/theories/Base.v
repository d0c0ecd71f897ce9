(** Shared vocabulary of the model: outcomes, bytes, machine integers. *)
From Coq Require String.
From Coq Require Import List NArith ZArith Lia Bool.
From Coq.Init Require Import Byte.
From Coq.Strings Require Import Byte.
Import ListNotations.
Open Scope list_scope.

(** Why an execution is undefined. *)
Inductive ub : Set :=
| OutOfBounds      (* access outside an array, a block or a string *)
| DivByZero        (* [x % 0] *)
| NullDeref        (* use of a null pointer *)
| DeadObject       (* use of freed or never constructed storage *)
| TypeConfusion    (* [asX]/[toX] on a value of another type *)
| PastTheEnd       (* scanner cursor moved beyond the terminating NUL *)
| MissingReturn    (* flowing off the end of a non-void function *)
| Uninitialised    (* read of indeterminate storage *)
| IntOverflow      (* signed arithmetic out of range *)
| WrongDealloc     (* delete of malloc'ed memory or free of new'ed memory *).

(** C++ exceptions that the library throws
    (/repo/include/eni/diagnostic/Exception.h, /repo/include/eni/json/Parser.h:33-35). *)
Inductive exn : Set :=
| ParserError (msg : String.string)   (* ::ParserError, Parser.h:34, with the text that parse_error has
                                        written on standard error, Parser.h:282-285 *)
| OutOfRangeVector         (* OutOfRange<InvalidVectorIndex> *)
| OutOfRangeKey            (* OutOfRange<InvalidStringMapKey> *)
| LengthErrorVector        (* LengthError<InvalidVectorSize> *)
| BadAllocNoMemory         (* BadAlloc<NoMemory> *)
| LogicErrorDelegate       (* LogicError<InvalidDelegateAssigned> *)
| LogicErrorIterator       (* LogicError<InvalidIteratorEmpty> *)
| StdOutOfRange            (* std::out_of_range *)
| StdLengthError           (* std::length_error *)
| Unimplemented            (* LogicError<Unimplemented> *)
| StdBadAlloc              (* std::bad_alloc *).

(** Result of running a piece of code. *)
Inductive outcome (A : Type) : Type :=
| Ret (a : A)
| Throw (e : exn)
| UB (u : ub)
| Diverge
| Exit (code : Z).
Arguments Ret {A} a.
Arguments Throw {A} e.
Arguments UB {A} u.
Arguments Diverge {A}.
Arguments Exit {A} code.

Definition bind {A B : Type} (m : outcome A) (k : A -> outcome B) : outcome B :=
  match m with
  | Ret a => k a
  | Throw e => Throw e
  | UB u => UB u
  | Diverge => Diverge
  | Exit c => Exit c
  end.

Declare Scope outcome_scope.
Delimit Scope outcome_scope with outcome.
Notation "x <- m ;; k" := (bind m (fun x => k))
  (at level 61, m at next level, right associativity) : outcome_scope.
Notation "' pat <- m ;; k" := (bind m (fun x => match x with pat => k end))
  (at level 61, pat pattern, m at next level, right associativity) : outcome_scope.
Open Scope outcome_scope.

Definition omap {A B : Type} (f : A -> B) (m : outcome A) : outcome B :=
  bind m (fun a => Ret (f a)).

(** Machine integers: values are [N]/[Z], wrap-around is explicit. *)
Definition u16 (n : N) : N := (n mod 65536)%N.
Definition u32 (n : N) : N := (n mod 4294967296)%N.
Definition u64 (n : N) : N := (n mod 18446744073709551616)%N.
(** unsigned subtraction [a - b] on 32 bits *)
Definition sub32 (a b : N) : N := u32 (a + 4294967296 - u32 b).
Definition sub64 (a b : N) : N := u64 (a + 18446744073709551616 - u64 b).

(** Bytes and strings. *)
Definition bytes := list byte.
Definition NUL : byte := x00.
Definition bval (b : byte) : N := Byte.to_N b.
(** [char] is signed on the platforms libeni supports (x86-64). *)
Definition schar (b : byte) : Z :=
  let n := Z.of_N (Byte.to_N b) in if (n <? 128)%Z then n else (n - 256)%Z.
(** Conversion of an [int] to [char]: low eight bits. *)
Definition byte_of_N (n : N) : byte :=
  match Byte.of_N (n mod 256)%N with Some b => b | None => x00 end.

Definition beqb (a b : byte) : bool := Byte.eqb a b.

Fixpoint bytes_eqb (a b : bytes) : bool :=
  match a, b with
  | [], [] => true
  | x :: a', y :: b' => Byte.eqb x y && bytes_eqb a' b'
  | _, _ => false
  end.

Lemma beqb_spec a b : reflect (a = b) (beqb a b).
Proof.
  unfold beqb. destruct (Byte.eqb a b) eqn:E; constructor.
  - apply Byte.byte_dec_bl; exact E.
  - intros ->. rewrite Byte.byte_dec_lb in E; [discriminate | reflexivity].
Qed.

Lemma beqb_refl a : beqb a a = true.
Proof. destruct (beqb_spec a a); congruence. Qed.

Lemma bytes_eqb_spec a b : reflect (a = b) (bytes_eqb a b).
Proof.
  revert b; induction a as [|x a IH]; destruct b as [|y b]; cbn; try (constructor; congruence).
  change (Byte.eqb x y) with (beqb x y).
  destruct (beqb_spec x y); cbn; [|constructor; congruence].
  destruct (IH b); constructor; congruence.
Qed.

Lemma bval_lt b : (bval b < 256)%N.
Proof. destruct b; reflexivity. Qed.

Lemma byte_of_N_bval b : byte_of_N (bval b) = b.
Proof. destruct b; reflexivity. Qed.

Lemma bval_inj a b : bval a = bval b -> a = b.
Proof. intros H. rewrite <- (byte_of_N_bval a), <- (byte_of_N_bval b), H. reflexivity. Qed.

Lemma bval_byte_of_N n : bval (byte_of_N n) = (n mod 256)%N.
Proof.
  unfold byte_of_N, bval.
  destruct (Byte.of_N (n mod 256)) as [b|] eqn:E.
  - symmetry. apply Byte.to_of_N_iff in E. exact (eq_sym E).
  - exfalso. apply Byte.of_N_None_iff in E.
    pose proof (N.mod_lt n 256). lia.
Qed.

(** A C string read from memory ends at the first NUL. *)
Fixpoint cstr (s : bytes) : bytes :=
  match s with
  | [] => []
  | b :: s' => if beqb b NUL then [] else b :: cstr s'
  end.

Lemma bind_ret {A B} (m : outcome A) (k : A -> outcome B) b :
  bind m k = Ret b -> exists a, m = Ret a /\ k a = Ret b.
Proof. destruct m; cbn; intros H; try discriminate. eauto. Qed.

Lemma bind_ret_r {A} (m : outcome A) : bind m Ret = m.
Proof. destruct m; reflexivity. Qed.

Lemma bind_assoc {A B C} (m : outcome A) (f : A -> outcome B) (g : B -> outcome C) :
  bind (bind m f) g = bind m (fun x => bind (f x) g).
Proof. destruct m; reflexivity. Qed.
