(** What it means for a json::Value to hold the value of a text, in terms of the public API:
    type, asInteger/asString/toBoolean, array elements, object size, lookup and iteration. *)
From Verif Require Import Base HashModel StringMapSpec StringMapModel JsonSpec JsonModel.
From Coq Require Import List NArith ZArith Bool.
From Coq.Init Require Import Byte.
From Coq.Strings Require Import Byte.
Import ListNotations.

Definition bytes_dec : forall a b : bytes, {a = b} + {a <> b} := list_eq_dec Byte.byte_eq_dec.

(** number of distinct keys *)
Definition distinct (ms : list (bytes * ast)) : N := N.of_nat (length (nodup bytes_dec (map fst ms))).

Inductive denotes : jvalue -> ast -> Prop :=
| D_int z : denotes (JInt (reduce256 z)) (AInt z)
| D_bool b : denotes (JBool b) (ABool b)
| D_str s : denotes (JStr s) (AStr s)
| D_arr vs l : Forall2 denotes vs l -> denotes (JArr vs) (AArr l)
| D_obj t ms :
    nE t = distinct ms ->                                              (* size() *)
    (forall k a, last_binding k ms = Some a -> exists v, sm_at t k = Ret v /\ denotes v a) ->
    (forall k, last_binding k ms = None -> sm_at t k = Throw OutOfRangeKey) ->
    (exists es, traverse (N.to_nat (nE t)) t = Ret es /\ NoDup (map fst es) /\
                forall k v, In (k, v) es <-> sm_at t k = Ret v) ->      (* begin() .. end() *)
    denotes (JObj t) (AObj ms).

(** Values without objects and undefined parts, integers on 256 bits. *)
Inductive simple : jvalue -> Prop :=
| S_int z : (Z.abs z < 2^256)%Z -> simple (JInt z)
| S_bool b : simple (JBool b)
| S_str s : simple (JStr s)
| S_arr l : (forall v, In v l -> simple v) -> simple (JArr l).

(** Every object key inside the value satisfies [P]. *)
Inductive all_keys (P : bytes -> Prop) : jvalue -> Prop :=
| K_undef : all_keys P JUndef
| K_int z : all_keys P (JInt z)
| K_bool b : all_keys P (JBool b)
| K_str s : all_keys P (JStr s)
| K_arr l : (forall v, In v l -> all_keys P v) -> all_keys P (JArr l)
| K_obj t : (forall bs b k v, tbl t = Some bs -> In b bs -> bslot b = Full (k, v) -> P k) ->
    (forall bs b k v, tbl t = Some bs -> In b bs -> bslot b = Full (k, v) -> all_keys P v) ->
    all_keys P (JObj t).

(** Address layouts in which the scanner's bound test does not get in the way: both pattern literals
    lie below the end of the text. *)
Definition good_layout (lay : layout) : Prop :=
  (a_rue lay + 2 < a_end lay /\ a_alse lay + 3 < a_end lay)%N.

(** The boolean literals that a given layout lets the scanner recognise. *)
Definition readable (lay : layout) (b : bool) : bool :=
  (if b then a_rue lay + 2 <? a_end lay else a_alse lay + 3 <? a_end lay)%N.

(** [h1 h2 h3 h4] are hexadecimal digits spelling [n] *)
Definition spells (h1 h2 h3 h4 : byte) (n : N) : Prop :=
  exists n1 n2 n3 n4, hex_value h1 = Some n1 /\ hex_value h2 = Some n2 /\ hex_value h3 = Some n3 /\ hex_value h4 = Some n4 /\
    n = (((n1 * 16 + n2) * 16 + n3) * 16 + n4)%N.

(** an optional minus sign, and the number it makes *)
Definition sign (neg : bool) : bytes := if neg then [x2d] else [].
Definition signed (neg : bool) (n : N) : Z := if neg then (- Z.of_N n)%Z else Z.of_N n.

(** Values a program can build: the scalars, arrays of such values, and objects filled by any history
    of map operations whose keys satisfy [P] (and are shorter than 65536 bytes, see C22). *)
Inductive buildable (P : bytes -> Prop) : jvalue -> Prop :=
| B_undef : buildable P JUndef
| B_int z : buildable P (JInt z)
| B_bool b : buildable P (JBool b)
| B_str s : buildable P (JStr s)
| B_arr l : (forall v, In v l -> buildable P v) -> buildable P (JArr l)
| B_obj h t answers :
    (forall k v, In (MSet k v) h -> buildable P v) ->
    (forall o k, In o h -> mop_key o = Some k -> P k) ->
    (forall o k, In o h -> mop_key o = Some k -> (N.of_nat (length k) < 65536)%N) ->
    (N.of_nat (length h) <= 2^28)%N ->
    sm_run JUndef (sm_new 8) h = Ret (t, answers) ->
    buildable P (JObj t).

(** A boolean occurs in the value (objects are not looked into). *)
Fixpoint holds_bool (v : jvalue) : Prop :=
  match v with
  | JBool _ => True
  | JArr l => fold_right (fun x p => holds_bool x \/ p) False l
  | _ => False
  end.
