(** The documented JSON subset, as a grammar on byte strings.  Nothing here refers to the parser.

    Parser.h:10-20 documents: bool, int, string, array, object; no fraction, no null. *)
From Verif Require Import Base.
From Coq Require Import List NArith ZArith Bool.
From Coq.Init Require Import Byte.
From Coq.Strings Require Import Byte.
Import ListNotations.

(** What a JSON text denotes.  Integers are unbounded, objects list their members in textual order. *)
Inductive ast : Type :=
| AInt (z : Z)
| ABool (b : bool)
| AStr (s : bytes)
| AArr (l : list ast)
| AObj (ms : list (bytes * ast)).

(** characters *)
Definition white_char (c : byte) : Prop := In c [x20; x09; x0a; x0d].
Definition white (w : bytes) : Prop := Forall white_char w.
Definition digit (c : byte) : Prop := (48 <= bval c <= 57)%N.
Definition digit_value (c : byte) : N := (bval c - 48)%N.
Definition decimal (ds : bytes) : N := fold_left (fun n d => 10 * n + digit_value d)%N ds 0%N.
Definition hex_value (c : byte) : option N :=
  (if (48 <=? bval c) && (bval c <=? 57) then Some (bval c - 48)
   else if (97 <=? bval c) && (bval c <=? 102) then Some (bval c - 87)
   else if (65 <=? bval c) && (bval c <=? 70) then Some (bval c - 55)
   else None)%N.
Definition starts_with_digit (s : bytes) : Prop := exists c s', s = c :: s' /\ digit c.

(** two-character escapes: backslash followed by quote, backslash, slash, b, f, n, r, t *)
Definition short_escapes : list (byte * byte) :=
  [(x22, x22); (x5c, x5c); (x2f, x2f); (x62, x08); (x66, x0c); (x6e, x0a); (x72, x0d); (x74, x09)].

(** [gchars s cs r]: after the opening quote, [s] spells the characters [cs], the closing quote, and
    continues with [r].  A \u escape contributes the low eight bits of its code (see C12). *)
Inductive gchars : bytes -> bytes -> bytes -> Prop :=
| GC_end r : gchars (x22 :: r) [] r
| GC_escape e c s cs r : In (e, c) short_escapes -> gchars s cs r ->
    gchars (x5c :: e :: s) (c :: cs) r
| GC_code h1 h2 h3 h4 n1 n2 n3 n4 s cs r :
    hex_value h1 = Some n1 -> hex_value h2 = Some n2 -> hex_value h3 = Some n3 -> hex_value h4 = Some n4 ->
    gchars s cs r ->
    gchars (x5c :: x75 :: h1 :: h2 :: h3 :: h4 :: s)
           (byte_of_N (((n1 * 16 + n2) * 16 + n3) * 16 + n4) :: cs) r
| GC_plain c s cs r : c <> x22 -> c <> x5c -> gchars s cs r -> gchars (c :: s) (c :: cs) r.

(** [gnat s n r]: an unsigned integer literal; as many digits as there are. *)
Inductive gnat : bytes -> N -> bytes -> Prop :=
| GN_zero r : gnat (x30 :: r) 0 r
| GN_pos d ds r : digit d -> d <> x30 -> Forall digit ds -> ~ starts_with_digit r ->
    gnat (d :: ds ++ r) (decimal (d :: ds)) r.

Definition literal (b : bool) : bytes :=
  if b then [x74; x72; x75; x65] else [x66; x61; x6c; x73; x65].

(** a quoted key and the colon *)
Inductive gkey : bytes -> bytes -> bytes -> Prop :=
| GK w s k w' r : white w -> gchars s k (w' ++ x3a :: r) -> white w' -> gkey (w ++ x22 :: s) k r.

Section Grammar.
  (** Which of the two boolean literals belong to the language; the documented language has both. *)
  Variable lits : bool -> bool.

  (** [gval s a r]: [s] is white space, then a text of the value [a], then [r]. *)
  Inductive gval : bytes -> ast -> bytes -> Prop :=
  | G_bool w b r : white w -> lits b = true -> gval (w ++ literal b ++ r) (ABool b) r
  | G_nat w s n r : white w -> gnat s n r -> gval (w ++ s) (AInt (Z.of_N n)) r
  | G_neg w s n r : white w -> gnat s n r -> gval (w ++ x2d :: s) (AInt (- Z.of_N n)) r
  | G_str w s cs r : white w -> gchars s cs r -> gval (w ++ x22 :: s) (AStr cs) r
  | G_arr0 w w' r : white w -> white w' -> gval (w ++ x5b :: w' ++ x5d :: r) (AArr []) r
  | G_arr w s l r : white w -> gelems s l r -> gval (w ++ x5b :: s) (AArr l) r
  | G_obj0 w w' r : white w -> white w' -> gval (w ++ x7b :: w' ++ x7d :: r) (AObj []) r
  | G_obj w s ms r : white w -> gmembers s ms r -> gval (w ++ x7b :: s) (AObj ms) r
  (** one or more elements separated by commas, up to the closing bracket *)
  with gelems : bytes -> list ast -> bytes -> Prop :=
  | GE_last s a w r : gval s a (w ++ x5d :: r) -> white w -> gelems s [a] r
  | GE_cons s a w s' l r : gval s a (w ++ x2c :: s') -> white w -> gelems s' l r -> gelems s (a :: l) r
  (** one or more members separated by commas, up to the closing brace *)
  with gmembers : bytes -> list (bytes * ast) -> bytes -> Prop :=
  | GM_last s k s' a w r : gkey s k s' -> gval s' a (w ++ x7d :: r) -> white w -> gmembers s [(k, a)] r
  | GM_cons s k s' a w s'' ms r : gkey s k s' -> gval s' a (w ++ x2c :: s'') -> white w ->
      gmembers s'' ms r -> gmembers s ((k, a) :: ms) r.
End Grammar.

(** The documented language. *)
Definition documented : bool -> bool := fun _ => true.

(** 256-bit sign-magnitude integers: the magnitude is reduced modulo 2^256, the sign is kept. *)
Definition reduce256 (z : Z) : Z := (Z.sgn z * (Z.abs z mod 2^256))%Z.

(** The value of the last member with key [k]. *)
Fixpoint last_binding (k : bytes) (ms : list (bytes * ast)) : option ast :=
  match ms with
  | [] => None
  | (k', a) :: ms' =>
      match last_binding k ms' with
      | Some b => Some b
      | None => if bytes_eqb k' k then Some a else None
      end
  end.

(** All object keys, at every depth, are shorter than 65536 bytes. *)
Fixpoint short_keys (a : ast) : Prop :=
  match a with
  | AArr l => fold_right (fun x p => short_keys x /\ p) True l
  | AObj ms => fold_right (fun m p => ((N.of_nat (length (fst m)) < 65536)%N /\ short_keys (snd m)) /\ p) True ms
  | _ => True
  end.

(** A boolean occurs in the value. *)
Fixpoint has_bool (a : ast) : Prop :=
  match a with
  | ABool _ => True
  | AArr l => fold_right (fun x p => has_bool x \/ p) False l
  | AObj ms => fold_right (fun m p => has_bool (snd m) \/ p) False ms
  | _ => False
  end.
