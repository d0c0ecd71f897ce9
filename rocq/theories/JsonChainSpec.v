(** Following a path into a JSON document with one request to the JSON example after the other. *)
From Verif Require Import Base JsonSpec JsonModel JsonDenotes JsonExSpec.
From Coq Require Import List NArith ZArith Bool.
From Coq.Init Require Import Byte.
Import ListNotations.

(** one step: the [i]-th element of an array, the member [k] of an object *)
Inductive query : Type := Index (i : nat) | Key (k : bytes).

(** what the path leads to: the member that counts is the last with its key *)
Fixpoint part (path : list query) (it : item) : option item :=
  match path, it with
  | [], _ => Some it
  | Index i :: path', Arr l _ _ => match nth_error l i with Some x => part path' x | None => None end
  | Key k :: path', Obj ms _ _ => match last_member k ms with Some x => part path' x | None => None end
  | _, _ => None
  end.

(** the arguments of the request for a step from the range [b, e) of the document *)
Definition request (data : bytes) (q : query) (b e : Z) : list ast :=
  match q with
  | Index i => [AStr op_arrayGet; AStr data; AInt b; AInt e; AInt (Z.of_nat i)]
  | Key k => [AStr op_objectGet; AStr data; AInt b; AInt e; AStr k]
  end.
(** a C string that spells these arguments *)
Definition written (lay : layout) (buf : bytes) (l : list ast) : Prop :=
  (N.of_nat (length (cstr buf)) < 2^28)%N /\ exists r, gval (readable lay) (cstr buf) (AArr l) r.
(** the answer is a text for one string, sixteen hexadecimal digits for [b] and [e] *)
Definition answers_range (out : bytes) (b e : Z) : Prop :=
  (0 <= b)%Z /\ (0 <= e)%Z /\ exists h, one_string_text out h /\ spells_range h b e.

(** [chain run data b e path b' e']: a client that starts with the range [b, e) and makes one request for each step, each
    with the range answered to the one before, ends with [b', e') *)
Inductive chain (run : layout -> bytes -> outcome (option bytes)) (data : bytes) : Z -> Z -> list query -> Z -> Z -> Prop :=
| C_done b e : chain run data b e [] b e
| C_ask b e q path lay buf out b1 e1 b2 e2 :
    written lay buf (request data q b e) -> run lay buf = Ret (Some out) -> answers_range out b1 e1 ->
    chain run data b1 e1 path b2 e2 -> chain run data b e (q :: path) b2 e2.

(** jsmn gives the documented tokens for the document and for every part of it a path leads to *)
Definition jsmn_knows (jsmn : bytes -> Z -> Z -> outcome (Z * list token)) (data : bytes) (b e : Z) (root : item) : Prop :=
  jsmn_answers jsmn data b e root /\
  forall path it, part path root = Some it -> jsmn_answers jsmn data (begin_of it) (end_of it) it.
