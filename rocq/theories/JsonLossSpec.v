(** The storage that parsing a text leaves behind, in terms of the text alone. *)
From Verif Require Import Base JsonSpec ValueSpec JsonHeapSpec EniHeapSpec.
From Coq Require Import List NArith ZArith Bool.
Import ListNotations.

(** what the destructor of a value does not give back: an integer; all that an array holds *)
Fixpoint kept (t : tree) : nat :=
  match t with
  | TUndef | TBool _ | TStr _ => 0
  | TInt _ => 1
  | TArr l => list_sum (map blocks l)
  | TObj ms => list_sum (map (fun m => kept (snd m)) ms)
  end.

(** the members that are replaced when [ms] are entered one after the other: assignment gives nothing back *)
Fixpoint replaced (ms into : list (bytes * tree)) : nat :=
  match ms with
  | [] => 0
  | (k, v) :: ms' => match assoc k into with Some old => blocks old | None => 0 end + replaced ms' (assoc_set k v into)
  end.

(** by the callbacks: one copy of every integer; of every array and object the element of m_Stack, the local and the
    parameter; the members replaced *)
Fixpoint made (a : ast) : nat :=
  match a with
  | AInt _ => 1
  | ABool _ | AStr _ => 0
  | AArr l => list_sum (map made l) + 3 * kept (denote a)
  | AObj ms => list_sum (map (fun m => made (snd m)) ms) + replaced (map (fun m => (fst m, denote (snd m))) ms) [] + 3 * kept (denote a)
  end.

(** the arrays and objects of a text *)
Fixpoint containers (a : ast) : nat :=
  match a with
  | AInt _ | ABool _ | AStr _ => 0
  | AArr l => S (list_sum (map containers l))
  | AObj ms => S (list_sum (map (fun m => containers (snd m)) ms))
  end.

Section Moved.
  (** whether m_Stack moves its elements at its [p]-th push_back; the [p]-th array or object of the text *)
  Variable grows : nat -> bool.
  (** by m_Stack when it moves its elements: of every array and object around that one, what was read so far; [w] is that
      of those around [a] *)
  Fixpoint moved (a : ast) (p w : nat) : nat :=
    match a with
    | AInt _ | ABool _ | AStr _ => 0
    | AArr l =>
        (if grows p then w else 0) +
        (fix go l p seen :=
           match l with
           | [] => 0
           | x :: l' => moved x p (w + kept (TArr seen)) + go l' (p + containers x) (seen ++ [denote x])
           end) l (S p) []
    | AObj ms =>
        (if grows p then w else 0) +
        (fix go ms p seen :=
           match ms with
           | [] => 0
           | (k, x) :: ms' => moved x p (w + kept (TObj seen)) + go ms' (p + containers x) (assoc_set k (denote x) seen)
           end) ms (S p) []
    end.
End Moved.

(** a Parser made for the text [a] and destroyed *)
Definition parser_loss (grows : nat -> bool) (a : ast) : nat := made a + moved grows a 0 0 + kept (denote a).
(** a call with the arguments [l]: the Parser, m_Args, and the return values *)
Definition call_loss (k : call) (l : list ast) : nat :=
  parser_loss (k_grows k) (AArr l) + kept (denote (AArr l)) + list_sum (map ret_cost (call_returned k l)).
Fixpoint calls_loss (ks : list call) (args : list (list ast)) : nat :=
  match ks, args with
  | k :: ks', l :: args' => call_loss k l + calls_loss ks' args'
  | _, _ => 0
  end.
