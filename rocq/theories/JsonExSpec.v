(** JSON documents with the places of their parts, and the token lists documented by jsmn, without reference
    to the code of the example.  The documents are full JSON: also null, fractions and exponents. *)
From Verif Require Import Base JsonSpec.
From Coq Require Import List NArith ZArith Bool.
From Coq.Init Require Import Byte.
From Coq.Strings Require Import Byte.
Import ListNotations.

(** A part of a document: its kind and the range [b, e) of its text, quotes and brackets included. *)
Inductive item : Type :=
| Prim (b e : Z)                                            (* number, true, false, null *)
| Str (s : bytes) (b e : Z)                                 (* the string it denotes *)
| Arr (l : list item) (b e : Z)
| Obj (ms : list (bytes * (Z * Z) * item)) (b e : Z).       (* key, range of the key, value *)

Definition begin_of (it : item) : Z := match it with Prim b _ | Str _ b _ | Arr _ b _ | Obj _ b _ => b end.
Definition end_of (it : item) : Z := match it with Prim _ e | Str _ _ e | Arr _ _ e | Obj _ _ e => e end.

Definition len (s : bytes) : Z := Z.of_nat (length s).

Definition number_char (c : byte) : Prop := digit c \/ In c [x2b; x2d; x2e; x45; x65].   (* + - . E e *)
Inductive primitive : bytes -> Prop :=
| Pr_true : primitive [x74; x72; x75; x65]
| Pr_false : primitive [x66; x61; x6c; x73; x65]
| Pr_null : primitive [x6e; x75; x6c; x6c]
| Pr_number c t : (digit c \/ c = x2d) -> Forall number_char t -> primitive (c :: t).

(** [ival p s it r]: the text [s], which starts at position [p], is white space, the text of [it], and [r]. *)
Inductive ival : Z -> bytes -> item -> bytes -> Prop :=
| I_prim p w t r : white w -> primitive t -> ival p (w ++ t ++ r) (Prim (p + len w) (p + len w + len t)) r
| I_str p w t cs r : white w -> gchars (t ++ r) cs r ->
    ival p (w ++ x22 :: t ++ r) (Str cs (p + len w) (p + len w + 1 + len t)) r
| I_arr0 p w w' r : white w -> white w' ->
    ival p (w ++ x5b :: w' ++ x5d :: r) (Arr [] (p + len w) (p + len w + len w' + 2)) r
| I_arr p w s l r : white w -> ielems (p + len w + 1) s l r ->
    ival p (w ++ x5b :: s) (Arr l (p + len w) (p + len w + 1 + (len s - len r))) r
| I_obj0 p w w' r : white w -> white w' ->
    ival p (w ++ x7b :: w' ++ x7d :: r) (Obj [] (p + len w) (p + len w + len w' + 2)) r
| I_obj p w s ms r : white w -> imembers (p + len w + 1) s ms r ->
    ival p (w ++ x7b :: s) (Obj ms (p + len w) (p + len w + 1 + (len s - len r))) r
(** elements, commas, closing bracket *)
with ielems : Z -> bytes -> list item -> bytes -> Prop :=
| IE_last p s it w r : ival p s it (w ++ x5d :: r) -> white w -> ielems p s [it] r
| IE_cons p s it w s' l r : ival p s it (w ++ x2c :: s') -> white w -> ielems (p + (len s - len s')) s' l r ->
    ielems p s (it :: l) r
(** key, colon, value, commas, closing brace *)
with imembers : Z -> bytes -> list (bytes * (Z * Z) * item) -> bytes -> Prop :=
| IM_last p w t k w' s it w'' r :
    white w -> gchars (t ++ w' ++ x3a :: s) k (w' ++ x3a :: s) -> white w' ->
    ival (p + len w + 1 + len t + len w' + 1) s it (w'' ++ x7d :: r) -> white w'' ->
    imembers p (w ++ x22 :: t ++ w' ++ x3a :: s) [(k, (p + len w, p + len w + 1 + len t)%Z, it)] r
| IM_cons p w t k w' s it w'' s' ms r :
    white w -> gchars (t ++ w' ++ x3a :: s) k (w' ++ x3a :: s) -> white w' ->
    ival (p + len w + 1 + len t + len w' + 1) s it (w'' ++ x2c :: s') -> white w'' ->
    imembers (p + len w + 1 + len t + len w' + 1 + (len s - len s')) s' ms r ->
    imembers p (w ++ x22 :: t ++ w' ++ x3a :: s) ((k, (p + len w, p + len w + 1 + len t)%Z, it) :: ms) r.

(** [document data b e it]: the bytes [b, e) of [data] are a text of [it] between white space *)
Definition document (data : bytes) (b e : Z) (it : item) : Prop :=
  exists pre s w post, data = pre ++ s ++ post /\ b = len pre /\ e = (len pre + len s)%Z /\ ival b s it w /\ white w.

(** jsmn's tokens: the range of a string is without the quotes *)
Inductive toktype : Set := TUndefined | TObject | TArray | TString | TPrimitive.
Record token : Set := mkTok { t_type : toktype; t_start : Z; t_end : Z }.

(** the token of an item *)
Definition head_token (it : item) : token :=
  match it with
  | Prim b e => mkTok TPrimitive b e
  | Str _ b e => mkTok TString (b + 1) (e - 1)
  | Arr _ b e => mkTok TArray b e
  | Obj _ b e => mkTok TObject b e
  end.
(** the tokens of an item: its own, then those of its parts in textual order, a key before its value *)
Fixpoint tokens_of (it : item) : list token :=
  match it with
  | Prim b e => [mkTok TPrimitive b e]
  | Str _ b e => [mkTok TString (b + 1) (e - 1)]
  | Arr l b e => mkTok TArray b e :: flat_map tokens_of l
  | Obj ms b e => mkTok TObject b e ::
      flat_map (fun m => mkTok TString (fst (snd (fst m)) + 1) (snd (snd (fst m)) - 1) :: tokens_of (snd m)) ms
  end.

(** the number spelled by hexadecimal digits *)
Definition hex_number (h : bytes) : option N :=
  fold_left (fun a c => match a, hex_value c with Some n, Some d => Some (16 * n + d)%N | _, _ => None end) h (Some 0%N).
(** [spells_range h b e]: sixteen hexadecimal digits spell the numbers [b] and [e] *)
Definition spells_range (h : bytes) (b e : Z) : Prop :=
  length h = 16 /\ hex_number (firstn 8 h) = Some (Z.to_N b) /\ hex_number (skipn 8 h) = Some (Z.to_N e).

(** a text of the array of one string *)
Definition one_string_text (out s : bytes) : Prop := forall lits, gval lits out (AArr [AStr s]) [].

(** the value of the last member with key [k] *)
Fixpoint last_member (k : bytes) (ms : list (bytes * (Z * Z) * item)) : option item :=
  match ms with
  | [] => None
  | (k', _, it) :: ms' =>
      match last_member k ms' with
      | Some it' => Some it'
      | None => if bytes_eqb k' k then Some it else None
      end
  end.

(** the parts directly inside an array or an object; the keys of an object are strings *)
Definition child (it root : item) : Prop :=
  match root with
  | Arr l _ _ => In it l
  | Obj ms _ _ => exists m, In m ms /\ (it = snd m \/ it = Str (fst (fst m)) (fst (snd (fst m))) (snd (snd (fst m))))
  | _ => False
  end.

(** jsmn gives the documented tokens of [it]: the count, and the tokens *)
Definition jsmn_answers (jsmn : bytes -> Z -> Z -> outcome (Z * list token)) (data : bytes) (b e : Z) (it : item) : Prop :=
  jsmn data b e = Ret (Z.of_nat (length (tokens_of it)), tokens_of it).

(** the text a token stands for, with the quotes of a string *)
Definition text_range (t : token) : Z * Z :=
  match t_type t with
  | TString => (t_start t - 1, t_end t + 1)%Z
  | _ => (t_start t, t_end t)
  end.
Definition is_int (z : Z) : Prop := (-2147483648 <= z <= 2147483647)%Z.

(** the kinds of arguments a request needs, in order: the operation, the document, two positions, and for
    arrayGet an index, for objectGet a key *)
Inductive kind : Type := Text | Number.
Definition fits (a : ast) (k : kind) : Prop :=
  match a, k with AStr _, Text => True | AInt _, Number => True | _, _ => False end.
Definition op_arrayGet : bytes := [x61; x72; x72; x61; x79; x47; x65; x74].
Definition op_objectGet : bytes := [x6f; x62; x6a; x65; x63; x74; x47; x65; x74].
Definition fifth (op : bytes) : list kind :=
  if bytes_eqb op op_arrayGet then [Number] else if bytes_eqb op op_objectGet then [Text] else [].
Definition wanted (l : list ast) : list kind :=
  [Text; Text; Number; Number] ++ match l with AStr op :: _ => fifth op | _ => [] end.
