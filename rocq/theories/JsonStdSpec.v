(** What a JSON text means according to RFC 8259, with Unicode strings and all numbers.  Nothing here refers to the code.
    White space, digits, hexadecimal digits and the two-character escapes are as in JsonSpec.v. *)
From Verif Require Import Base JsonSpec.
From Coq Require Import List NArith ZArith Bool.
From Coq.Init Require Import Byte.
From Coq.Strings Require Import Byte.
Import ListNotations.

(** Strings are sequences of Unicode scalar values.  A number without fraction and exponent is an integer; any other is
    [m] times ten to the power of [e]. *)
Inductive tree : Type :=
| VNull
| VBool (b : bool)
| VInt (z : Z)
| VReal (m e : Z)
| VStr (s : list N)
| VArr (l : list tree)
| VObj (ms : list (list N * tree)).

Definition scalar (c : N) : Prop := (c < 55296 \/ 57344 <= c < 1114112)%N.

(** RFC 3629 *)
Definition utf8 (c : N) : bytes :=
  (if c <? 128 then [byte_of_N c]
   else if c <? 2048 then [byte_of_N (192 + c / 64); byte_of_N (128 + c mod 64)]
   else if c <? 65536 then [byte_of_N (224 + c / 4096); byte_of_N (128 + c / 64 mod 64); byte_of_N (128 + c mod 64)]
   else [byte_of_N (240 + c / 262144); byte_of_N (128 + c / 4096 mod 64); byte_of_N (128 + c / 64 mod 64); byte_of_N (128 + c mod 64)])%N.
Definition utf8_text (s : list N) : bytes := flat_map utf8 s.

(** four hexadecimal digits *)
Inductive quad : bytes -> N -> Prop :=
| Quad h1 h2 h3 h4 n1 n2 n3 n4 : hex_value h1 = Some n1 -> hex_value h2 = Some n2 -> hex_value h3 = Some n3 -> hex_value h4 = Some n4 ->
    quad [h1; h2; h3; h4] (((n1 * 16 + n2) * 16 + n3) * 16 + n4).

(** unsigned decimal digits without needless zeros; a fraction; an exponent *)
Inductive whole : bytes -> Prop :=
| W_zero : whole [x30]
| W_pos d ds : digit d -> d <> x30 -> Forall digit ds -> whole (d :: ds).
Inductive fraction : bytes -> bytes -> Prop :=
| F_none : fraction [] []
| F_some d ds : Forall digit (d :: ds) -> fraction (x2e :: d :: ds) (d :: ds).
Inductive exponent : bytes -> Z -> Prop :=
| E_none : exponent [] 0
| E_plus c p d ds : In c [x65; x45] -> In p [[]; [x2b]] -> Forall digit (d :: ds) -> exponent (c :: p ++ d :: ds) (Z.of_N (decimal (d :: ds)))
| E_minus c d ds : In c [x65; x45] -> Forall digit (d :: ds) -> exponent (c :: x2d :: d :: ds) (- Z.of_N (decimal (d :: ds))).
(** the number ends where no character that could belong to it follows *)
Definition number_ends (r : bytes) : Prop := forall c r', r = c :: r' -> ~ digit c /\ ~ In c [x2e; x65; x45].
Definition signed (sg : bytes) (n : Z) : Z := match sg with [] => n | _ => (- n)%Z end.

Section Text.
  (** the codes that may be written as escapes with \u; RFC 8259 allows all *)
  Variable esc : N -> Prop.

  (** [rchars s cs r]: after the opening quote, [s] spells the string [cs], the closing quote, and continues with [r] *)
  Inductive rchars : bytes -> list N -> bytes -> Prop :=
  | R_end r : rchars (x22 :: r) [] r
  | R_raw c s cs r : scalar c -> (32 <= c)%N -> c <> 34%N -> c <> 92%N -> rchars s cs r -> rchars (utf8 c ++ s) (c :: cs) r
  | R_short e c s cs r : In (e, c) short_escapes -> rchars s cs r -> rchars (x5c :: e :: s) (bval c :: cs) r
  | R_code h n s cs r : quad h n -> scalar n -> esc n -> rchars s cs r -> rchars (x5c :: x75 :: h ++ s) (n :: cs) r
  | R_pair h h' hi lo c s cs r : quad h hi -> quad h' lo -> (55296 <= hi < 56320)%N -> (56320 <= lo < 57344)%N ->
      c = (65536 + (hi - 55296) * 1024 + (lo - 56320))%N -> esc c -> rchars s cs r ->
      rchars (x5c :: x75 :: h ++ x5c :: x75 :: h' ++ s) (c :: cs) r.

  (** [rval s v r]: [s] is white space, then a text of the value [v], then [r] *)
  Inductive rval : bytes -> tree -> bytes -> Prop :=
  | R_null w r : white w -> rval (w ++ [x6e; x75; x6c; x6c] ++ r) VNull r
  | R_bool w b r : white w -> rval (w ++ literal b ++ r) (VBool b) r
  | R_int w sg ds r : white w -> In sg [[]; [x2d]] -> whole ds -> number_ends r ->
      rval (w ++ sg ++ ds ++ r) (VInt (signed sg (Z.of_N (decimal ds)))) r
  | R_real w sg ds fr fs ex e r : white w -> In sg [[]; [x2d]] -> whole ds -> fraction fr fs -> exponent ex e -> fr ++ ex <> [] -> number_ends r ->
      rval (w ++ sg ++ ds ++ fr ++ ex ++ r) (VReal (signed sg (Z.of_N (decimal (ds ++ fs)))) (e - Z.of_nat (length fs))) r
  | R_str w s cs r : white w -> rchars s cs r -> rval (w ++ x22 :: s) (VStr cs) r
  | R_arr0 w w' r : white w -> white w' -> rval (w ++ x5b :: w' ++ x5d :: r) (VArr []) r
  | R_arr w s l r : white w -> relems s l r -> rval (w ++ x5b :: s) (VArr l) r
  | R_obj0 w w' r : white w -> white w' -> rval (w ++ x7b :: w' ++ x7d :: r) (VObj []) r
  | R_obj w s ms r : white w -> rmembers s ms r -> rval (w ++ x7b :: s) (VObj ms) r
  with relems : bytes -> list tree -> bytes -> Prop :=
  | RE_last s v w r : rval s v (w ++ x5d :: r) -> white w -> relems s [v] r
  | RE_cons s v w s' l r : rval s v (w ++ x2c :: s') -> white w -> relems s' l r -> relems s (v :: l) r
  with rmembers : bytes -> list (list N * tree) -> bytes -> Prop :=
  | RM_last w s k w' s' v w'' r : white w -> rchars s k (w' ++ x3a :: s') -> white w' -> rval s' v (w'' ++ x7d :: r) -> white w'' ->
      rmembers (w ++ x22 :: s) [(k, v)] r
  | RM_cons w s k w' s' v w'' s'' ms r : white w -> rchars s k (w' ++ x3a :: s') -> white w' -> rval s' v (w'' ++ x2c :: s'') -> white w'' ->
      rmembers s'' ms r -> rmembers (w ++ x22 :: s) ((k, v) :: ms) r.
End Text.

(** RFC 8259; and the texts that escape with \u only the first 128 codes *)
Definition any_code (c : N) : Prop := True.
Definition ascii (c : N) : Prop := (c < 128)%N.

(** No null, no number with fraction or exponent: the values that the documented subset has. *)
Fixpoint supported (v : tree) : Prop :=
  match v with
  | VNull | VReal _ _ => False
  | VArr l => fold_right (fun x p => supported x /\ p) True l
  | VObj ms => fold_right (fun m p => supported (snd m) /\ p) True ms
  | _ => True
  end.

(** The same value in the documented subset, with strings in UTF-8.  (Of values that are not supported only the rest.) *)
Fixpoint in_utf8 (v : tree) : ast :=
  match v with
  | VBool b => ABool b
  | VInt z => AInt z
  | VStr s => AStr (utf8_text s)
  | VArr l => AArr (map in_utf8 l)
  | VObj ms => AObj (map (fun m => (utf8_text (fst m), in_utf8 (snd m))) ms)
  | VNull | VReal _ _ => AArr []
  end.

(** All characters of the strings and keys have codes below 128. *)
Fixpoint all_ascii (v : tree) : Prop :=
  match v with
  | VStr s => Forall ascii s
  | VArr l => fold_right (fun x p => all_ascii x /\ p) True l
  | VObj ms => fold_right (fun m p => (Forall ascii (fst m) /\ all_ascii (snd m)) /\ p) True ms
  | _ => True
  end.

(** All strings and keys are sequences of scalar values. *)
Fixpoint unicode (v : tree) : Prop :=
  match v with
  | VStr s => Forall scalar s
  | VArr l => fold_right (fun x p => unicode x /\ p) True l
  | VObj ms => fold_right (fun m p => (Forall scalar (fst m) /\ unicode (snd m)) /\ p) True ms
  | _ => True
  end.

(** No number with fraction or exponent. *)
Fixpoint no_reals (v : tree) : Prop :=
  match v with
  | VReal _ _ => False
  | VArr l => fold_right (fun x p => no_reals x /\ p) True l
  | VObj ms => fold_right (fun m p => no_reals (snd m) /\ p) True ms
  | _ => True
  end.
