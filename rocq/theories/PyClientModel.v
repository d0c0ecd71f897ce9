(** The client of test/jsontests: test/jsontests/__init__.py:14-17.

    The values that Python passes around are those of JSON; [tree] has them, and strings are sequences of Unicode scalar values
    (a Python string with lone surrogates is not modelled).  json.dumps and json.loads belong to Python; [dumps] follows the
    documentation of json.dumps with its default arguments, and [loads] says that a text of RFC 8259 is read as what it means
    there. *)
From Verif Require Import Base JsonSpec JsonModel JsonStdSpec.
From Coq Require Import List NArith ZArith Bool.
From Coq.Init Require Import Byte.
From Coq.Strings Require Import Byte.
Import ListNotations.

(** json.dumps (test/jsontests/__init__.py:15): one hexadecimal digit, and four of them after \u *)
Definition py_hex (n : N) : byte := byte_of_N (if n <? 10 then 48 + n else 87 + n)%N.
Definition py_u (n : N) : bytes := ([x5c; x75; py_hex (n / 4096); py_hex (n / 256 mod 16); py_hex (n / 16 mod 16); py_hex (n mod 16)])%N.

(** json.dumps (test/jsontests/__init__.py:15): one character of a string; ensure_ascii is True by default *)
Definition py_char (c : N) : bytes :=
  (if c =? 34 then [x5c; x22]
   else if c =? 92 then [x5c; x5c]
   else if c =? 10 then [x5c; x6e]
   else if c =? 13 then [x5c; x72]
   else if c =? 9 then [x5c; x74]
   else if c =? 12 then [x5c; x66]
   else if c =? 8 then [x5c; x62]
   else if (32 <=? c) && (c <=? 126) then [byte_of_N c]
   else if c <? 65536 then py_u c
   else py_u (55296 + (c - 65536) / 1024) ++ py_u (56320 + (c - 65536) mod 1024))%N.
Definition py_str (s : list N) : bytes := x22 :: flat_map py_char s ++ [x22].

(** json.dumps (test/jsontests/__init__.py:15): items are separated by a comma and a space *)
Fixpoint py_commas (l : list bytes) : bytes :=
  match l with
  | [] => []
  | [x] => x
  | x :: l' => x ++ x2c :: x20 :: py_commas l'
  end.

Section Dumps.
  (** how Python writes the floating-point number [m] times ten to the power of [e] *)
  Variable repr : Z -> Z -> bytes.

  (** json.dumps (test/jsontests/__init__.py:15) *)
  Fixpoint dumps (v : tree) : bytes :=
    match v with
    | VNull => [x6e; x75; x6c; x6c]
    | VBool b => literal b
    | VInt z => int_text z
    | VReal m e => repr m e
    | VStr s => py_str s
    | VArr l => x5b :: py_commas (map dumps l) ++ [x5d]
    | VObj ms => x7b :: py_commas (map (fun m => py_str (fst m) ++ x3a :: x20 :: dumps (snd m)) ms) ++ [x7d]
    end.

  (** test/jsontests/__init__.py:15: the command line; [tool] is xx *)
  Definition command_line (tool libpath name : bytes) (input : tree) : list bytes := [tool; libpath; name; dumps input].
End Dumps.

(** test/jsontests/__init__.py:16-17: the text [out] is decoded and read as [v] *)
Definition loads (out : bytes) (v : tree) : Prop := exists w, rval any_code out v w /\ white w.

(** test/jsontests/__init__.py:14-17: the answer is [v], where [ran] is how the tool ended (subprocess.check_output raises
    an exception unless the status is 0) *)
Definition answers (ran : outcome (Z * bytes)) (v : tree) : Prop := exists out, ran = Ret (0%Z, out) /\ loads out v.
