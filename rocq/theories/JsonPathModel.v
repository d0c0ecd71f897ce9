(** Model of a program that follows a path through a json::Value
    (/repo/lib/json/Value.cpp:198-212 operator[] const). *)
From Verif Require Import Base HashModel JsonModel JsonPathSpec.
From Coq Require Import List NArith ZArith Bool.
Import ListNotations.

(** [v[k][i]...], one operator[] after the other: Value.cpp:198-212 *)
Fixpoint walk (v : jvalue) (p : list access) : outcome jvalue :=
  match p with
  | [] => Ret v
  | Key k :: p' => v' <- value_key v k ;; walk v' p'
  | Index i :: p' => v' <- value_idx v i ;; walk v' p'
  end.

(** what the caller reads of the value: Notation.h:31 type(), Value.h:45-54 the readers, Vector.tcc:91-95 size(),
    HashBase.h:94 numOfEntries() *)
Definition see (v : jvalue) : found :=
  match v with
  | JUndef => FUndef
  | JInt z => FInt z
  | JBool b => FBool b
  | JStr s => FStr s
  | JArr l => FArr (length l)
  | JObj t => FObj (N.to_nat (nE t))
  end.

(** the caller catches the two exceptions (Vector.tcc:176,185; StringMap.h:61,68) *)
Definition observe (v : jvalue) (p : list access) : outcome found :=
  match walk v p with
  | Ret w => Ret (see w)
  | Throw OutOfRangeKey => Ret FNoKey
  | Throw OutOfRangeVector => Ret FNoIndex
  | Throw e => Throw e
  | UB u => UB u
  | Diverge => Diverge
  | Exit n => Exit n
  end.
