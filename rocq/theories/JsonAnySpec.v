(** Spec for C110: the tokens of any text, document or not. *)
From Verif Require Import Base JsonSpec JsonModel JsonDenotes JsonExSpec.
From Coq Require Import List ZArith.
Import ListNotations.

(** the text of one token lies before that of another, or strictly inside that of an array or object *)
Definition before (t t' : token) : Prop := (snd (text_range t) <= fst (text_range t'))%Z.
Definition holds (t t' : token) : Prop :=
  (t_type t = TArray \/ t_type t = TObject) /\ (fst (text_range t) < fst (text_range t'))%Z /\ (snd (text_range t') < snd (text_range t))%Z.
(** the text of a token is not empty, a string has both its quotation marks *)
Definition solid (t : token) : Prop :=
  (fst (text_range t) < snd (text_range t))%Z /\ (t_type t = TString -> fst (text_range t) + 2 <= snd (text_range t))%Z.

(** tokens within [b, e), in the order of the text: each one stands after or inside every earlier one *)
Definition tidy (b e : Z) (ts : list token) : Prop :=
  Forall (fun t => solid t /\ b <= fst (text_range t) /\ snd (text_range t) <= e)%Z ts /\ ForallOrdPairs (fun t t' => before t t' \/ holds t t') ts.

(** jsmn reports [ts] *)
Definition jsmn_reports (jsmn : bytes -> Z -> Z -> outcome (Z * list token)) (data : bytes) (b e : Z) (ts : list token) : Prop :=
  jsmn data b e = Ret (Z.of_nat (length ts), ts).

(** [tops t0 ts cs]: [cs] are the tokens among [ts] that stand inside no other of [ts] and begin no later than [t0] ends, each
    before the next *)
Definition tops (t0 : token) (ts cs : list token) : Prop :=
  ForallOrdPairs before cs /\
  forall t, In t cs <-> In t ts /\ (t_start t <= t_end t0)%Z /\ forall t', In t' ts -> ~ holds t' t.

(** a token and one character on either side; the text ends with a NUL *)
Definition beside (data : bytes) (t : token) : bytes := firstn (Z.to_nat (t_end t + 1 - (t_start t - 1))) (skipn (Z.to_nat (t_start t - 1)) (data ++ [NUL])).
(** what the parser makes of it: a string, nothing, or something else *)
Inductive key_text (inner : bytes -> layout) (data : bytes) (t : token) : bytes -> Prop :=
| KT_string k r : gval (readable (inner (beside data t))) (beside data t) (AStr k) r -> key_text inner data t k
| KT_unread : (forall a r, ~ gval (readable (inner (beside data t))) (beside data t) a r) -> key_text inner data t [].
Definition no_key (inner : bytes -> layout) (data : bytes) (t : token) : Prop :=
  exists a r, gval (readable (inner (beside data t))) (beside data t) a r /\ forall k, a <> AStr k.

(** tokens taken two by two, a key and a value; [rest] is left *)
Inductive by_two (inner : bytes -> layout) (data : bytes) : list token -> list (bytes * token) -> list token -> Prop :=
| BT_rest l : by_two inner data l [] l
| BT_two t k v l ps rest : key_text inner data t k -> by_two inner data l ps rest -> by_two inner data (t :: v :: l) ((k, v) :: ps) rest.
(** the last of that name *)
Fixpoint last_of (k : bytes) (ps : list (bytes * token)) : option token :=
  match ps with
  | [] => None
  | (k', t) :: ps' =>
      match last_of k ps' with
      | Some t' => Some t'
      | None => if bytes_eqb k' k then Some t else None
      end
  end.
