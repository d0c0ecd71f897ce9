(** What a JSON text means as a json::Value, and the storage that value needs, without reference to the parser or to
    memory. *)
From Verif Require Import Base JsonSpec ValueSpec.
From Coq Require Import List NArith ZArith Bool.
Import ListNotations.

(** members entered one after the other: a later one replaces an earlier one with the same key *)
Fixpoint enter_all {A} (ms : list (bytes * A)) (into : list (bytes * A)) : list (bytes * A) :=
  match ms with
  | [] => into
  | (k, v) :: ms' => enter_all ms' (assoc_set k v into)
  end.

(** the content of the value for a text *)
Fixpoint denote (a : ast) : tree :=
  match a with
  | AInt z => TInt (reduce256 z)
  | ABool b => TBool b
  | AStr s => TStr s
  | AArr l => TArr (map denote l)
  | AObj ms => TObj (enter_all (map (fun m => (fst m, denote (snd m))) ms) [])
  end.

(** No key in the text, wherever one could start, has 65536 bytes or more. *)
Definition short_text (s : bytes) : Prop :=
  forall pre t k r, s = pre ++ t -> gkey t k r -> (N.of_nat (length k) < 65536)%N.

(** No integer occurs, arrays hold nothing but booleans, and a member whose key comes again later is a boolean. *)
Fixpoint plain_text (a : ast) : Prop :=
  match a with
  | AInt _ => False
  | ABool _ | AStr _ => True
  | AArr l => Forall (fun x => exists b, x = ABool b) l
  | AObj ms =>
      (forall m1 k v m2, ms = m1 ++ (k, v) :: m2 -> In k (map fst m2) -> exists b, v = ABool b) /\
      fold_right (fun m p => plain_text (snd m) /\ p) True ms
  end.
