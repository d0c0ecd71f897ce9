(** How deeply a text nests, without reference to the parser. *)
From Verif Require Import Base JsonSpec.
From Coq Require Import List NArith ZArith Bool.
From Coq.Init Require Import Byte.
Import ListNotations.

(** the opening brackets and braces of a text, wherever they stand *)
Definition opens (s : bytes) : nat := length (filter (fun c => beqb c x5b || beqb c x7b) s).

(** levels of a value: a scalar or an empty container is one level, a container is one above its deepest element *)
Fixpoint levels (a : ast) : nat :=
  match a with
  | AArr l => S (fold_right Nat.max 0 (map levels l))
  | AObj ms => S (fold_right Nat.max 0 (map (fun m => levels (snd m)) ms))
  | _ => 1
  end.

(** [n] arrays, each the only element of the one around it *)
Definition nest (n : nat) : bytes := repeat x5b n ++ repeat x5d n.
