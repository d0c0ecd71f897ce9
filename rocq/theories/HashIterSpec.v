(** Specification of a loop over a finite map whose body changes the map.
    Nothing here refers to the model of the code. *)
From Verif Require Import Base HashSpec.
From Coq Require Import List NArith Bool.
Import ListNotations.

Section Loop.
  Context {K V : Type}.
  Variable keqb : K -> K -> bool.
  Variable dflt : V.
  (** what the loop body does: the pairs visited so far, the current one last, give the calls it
      makes on the table before it moves on *)
  Variable body : list (K * V) -> list (op K V).

  (** a pair of [m] whose key the loop has not visited yet *)
  Definition fresh (seen : list (K * V)) (m : fmap K V) (e : K * V) : Prop :=
    get keqb m (fst e) = Some (snd e) /\ ~ In (fst e) (map fst seen).

  (** [reaches m seen m']: a loop over [m] that visits fresh pairs only can visit [seen] in this
      order and is then at [m']. *)
  Inductive reaches (m : fmap K V) : list (K * V) -> fmap K V -> Prop :=
  | R_start : reaches m [] m
  | R_visit seen m1 e m2 answers :
      reaches m seen m1 -> fresh seen m1 e ->
      spec_run keqb dflt m1 (body (seen ++ [e])) = Some (m2, answers) ->
      reaches m (seen ++ [e]) m2.

  (** nothing is left to visit *)
  Definition all_seen (seen : list (K * V)) (m : fmap K V) : Prop :=
    forall k, has keqb m k = true -> In k (map fst seen).

  (** Calls allowed in the body: everything but inserting an absent key, clear() and rehash(n). *)
  Definition quiet (m : fmap K V) (o : op K V) : Prop :=
    match o with
    | OpInsert k | OpSet k _ => has keqb m k = true
    | OpClear | OpRehashTo _ => False
    | _ => True
    end.

  Fixpoint quiet_run (m : fmap K V) (l : list (op K V)) : Prop :=
    match l with
    | [] => True
    | o :: l' => quiet m o /\
        match spec_step keqb dflt m o with Some (m', _) => quiet_run m' l' | None => True end
    end.

  (** the body keeps to the allowed calls, whatever the order of the visits *)
  Definition obeys (m : fmap K V) : Prop :=
    forall seen m1 e, reaches m seen m1 -> fresh seen m1 e -> quiet_run m1 (body (seen ++ [e])).
End Loop.
