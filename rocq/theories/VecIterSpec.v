(** Spec for C111: iterators of a Vector. *)
From Verif Require Import Base VectorSpec VectorModel VecIterModel.
From Coq Require Import List NArith Bool.
Import ListNotations.
Local Open Scope N_scope.

(** v.begin() + k *)
Definition begin_plus {A} (v : ivec A) (k : N) : viter := mkVI (vblock (it_begin v)) (voff (it_begin v) + k).

(** The vector has the elements [l]; its iterators point to them, and end() is behind the last. *)
Definition has {A} (v : ivec A) (l : list A) : Prop :=
  velems (iv v) = Ret l /\
  (forall k a, nth_error l (N.to_nat k) = Some a -> it_deref v (begin_plus v k) = Ret a) /\
  it_end v = begin_plus v (len l).

(** No iterator of [v] may be used with [v'] any more: reading, moving and comparing it, and calls with it are undefined. *)
Definition all_dead {A} (v v' : ivec A) : Prop :=
  forall k, it_deref v' (begin_plus v k) = UB DeadObject /\ it_next v' (begin_plus v k) = UB DeadObject /\
            (forall it, it_eq v' (begin_plus v k) it = UB DeadObject) /\ it_index v' (begin_plus v k) = UB DeadObject.
(** The iterators of [v] are those of [v']. *)
Definition all_kept {A} (v v' : ivec A) : Prop := forall k, begin_plus v k = begin_plus v' k.

(** not to be erased *)
Definition wanted {A} (p : A -> bool) (a : A) : bool := negb (p a).
