(** Command lines of eni_gas and eni_run, without reference to the code. *)
From Verif Require Import Base.
From Coq Require Import List NArith Bool.
From Coq.Init Require Import Byte.
From Coq.Strings Require Import Byte.
Import ListNotations.

(** arguments starting with a dash *)
Definition is_option (a : bytes) : bool :=
  match a with
  | x2d :: _ => true
  | _ => false
  end.
Definition double_dash : bytes := [x2d; x2d].
Definition non_options (l : list bytes) : list bytes := filter (fun a => negb (is_option a)) l.

(** [positionals args pos]: options before the first double dash are ignored, everything after it is positional *)
Inductive positionals : list bytes -> list bytes -> Prop :=
| P_without args : ~ In double_dash args -> positionals args (non_options args)
| P_with pre post : ~ In double_dash pre -> positionals (pre ++ double_dash :: post) (non_options pre ++ post).
