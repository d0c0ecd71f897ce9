(** Spec for C109: the parts of a document, whatever its kind. *)
From Verif Require Import Base JsonSpec JsonModel JsonDenotes JsonExSpec.
From Coq Require Import List ZArith.
Import ListNotations.

(** the parts directly inside, in the order of the text: the elements of an array, the keys and values of an object *)
Definition parts (it : item) : list item :=
  match it with
  | Arr l _ _ => l
  | Obj ms _ _ => flat_map (fun m => [Str (fst (fst m)) (fst (snd (fst m))) (snd (snd (fst m))); snd m]) ms
  | Prim _ _ | Str _ _ _ => []
  end.

Definition is_str (it : item) : Prop := match it with Str _ _ _ => True | _ => False end.
(** the text of a part and one character on either side *)
Definition around (data : bytes) (it : item) : bytes := firstn (Z.to_nat (end_of it + 1 - (begin_of it - 1))) (skipn (Z.to_nat (begin_of it - 1)) data).

(** the key an element of an array is taken for: a string for itself, anything else for the empty string if the parser does not
    read the text around it *)
Inductive key_of (inner : bytes -> layout) (data : bytes) : item -> bytes -> Prop :=
| K_str k b e : key_of inner data (Str k b e) k
| K_unread it : ~ is_str it -> (forall a r, ~ gval (readable (inner (around data it))) (around data it) a r) -> key_of inner data it [].
(** and it is used as a string although it is none where the parser does read it *)
Definition confused (inner : bytes -> layout) (data : bytes) (it : item) : Prop :=
  ~ is_str it /\ exists a r, gval (readable (inner (around data it))) (around data it) a r.

(** [paired inner data l ps rest]: some first elements of an array taken two by two, a key and a value; [rest] is left *)
Inductive paired (inner : bytes -> layout) (data : bytes) : list item -> list (bytes * item) -> list item -> Prop :=
| Pd_rest l : paired inner data l [] l
| Pd_two it k v l ps rest : key_of inner data it k -> paired inner data l ps rest -> paired inner data (it :: v :: l) ((k, v) :: ps) rest.

(** the last pair of that name *)
Fixpoint last_pair (k : bytes) (ps : list (bytes * item)) : option item :=
  match ps with
  | [] => None
  | (k', it) :: ps' =>
      match last_pair k ps' with
      | Some it' => Some it'
      | None => if bytes_eqb k' k then Some it else None
      end
  end.
