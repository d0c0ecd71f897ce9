(** How many buckets a hash table has: the sizes it goes through and the one it needs.  Nothing here refers to the
    model of the code. *)
From Verif Require Import Base HashSpec.
From Coq Require Import List NArith Bool.
Import ListNotations.
Local Open Scope N_scope.

(** the size after [n] *)
Definition next_size (n : N) : N :=
  match find (fun s => n <? s)
    [1; 3; 17; 37; 67; 97; 197; 419; 977; 2593; 4099; 8209; 12289;
     16411; 20483; 32771; 49157; 65537; 98317; 131101; 196613] with
  | Some s => s
  | None => n + 131101
  end.

(** the [i]-th size of a table that starts with [b] buckets *)
Fixpoint nth_size (b : N) (i : nat) : N :=
  match i with O => b | S i' => next_size (nth_size b i') end.

(** [n] is the first of these sizes of which [p] entries fill at most three quarters *)
Definition needed (b p n : N) : Prop :=
  exists i, n = nth_size b i /\ 4 * p <= 3 * n /\ forall j, (j < i)%nat -> 3 * nth_size b j < 4 * p.

(** the first number of buckets of a table made for [size] entries; 0 stands for 16 *)
Definition first_size (size : N) : N := next_size (if size =? 0 then 16 else size).

Section Peak.
  Context {K V : Type}.
  Variable keqb : K -> K -> bool.
  Variable dflt : V.
  (** the largest number of entries at any time while [l] is executed *)
  Fixpoint peak (m : fmap K V) (l : list (op K V)) : N :=
    match l with
    | [] => card m
    | o :: l' => match spec_step keqb dflt m o with
                 | Some (m', _) => N.max (card m) (peak m' l')
                 | None => card m
                 end
    end.
End Peak.

Definition not_clear {K V} (o : op K V) : Prop := match o with OpClear => False | _ => True end.
