(** Model of a user's loop over a HashTable that calls the table inside the loop
    (/repo/include/eni/adt/bits/HashTable.tcc:222-232 begin, bits/HashIterator.tcc:205-239 getEntry
    and advance).  An iterator is a pair (table pointer, bucket index): it is not told about changes
    of the table. *)
From Verif Require Import Base HashSpec HashModel.
From Coq Require Import List NArith Bool.
Import ListNotations.

Section Loop.
  Context {K V : Type}.
  Variable keqb : K -> K -> bool.
  Variable hash : K -> N.
  Variable dflt : V.
  Variable body : list (K * V) -> list (op K V).

  (** [for (it = ...; it != t.end(); ++it) { e = it.getEntry(); body }]: getEntry is
      bits/HashIterator.tcc:205-221, advance 226-239, the calls of the body are [run].  Result: the
      table and the pairs visited. *)
  Fixpoint sweep (fuel : nat) (t : table (K * V)) (it : option nat) (seen : list (K * V))
    : outcome (table (K * V) * list (K * V)) :=
    match it with
    | None => Ret (t, seen)
    | Some _ =>
        match fuel with
        | O => Diverge
        | S f =>
            e <- deref t it ;;
            '(t', _) <- run keqb hash dflt t (body (seen ++ [e])) ;;
            it' <- advance t' it ;;
            sweep f t' it' (seen ++ [e])
        end
    end.

  (** the whole loop, from begin() (bits/HashTable.tcc:222-232) *)
  Definition loop (fuel : nat) (t : table (K * V)) : outcome (table (K * V) * list (K * V)) :=
    it <- begin_iter t ;; sweep fuel t it [].
End Loop.
