(** Specification of several hash tables whose entries are objects with an address.

    A table maps keys to (address of the entry, value).  [next] bounds the addresses handed out so
    far: a new entry always gets an address that no entry, alive or dead, had before (the model does
    not reuse freed memory; a pointer kept past its entry's life is an error in any case). *)
From Verif Require Import Base HashSpec.
From Coq Require Import List NArith Bool Permutation.
Import ListNotations.
Local Open Scope N_scope.

Notation ptr := nat (only parsing).

Section Spec.
  Context {K V : Type}.
  Variable keqb : K -> K -> bool.
  Variable dflt : V.

  (** [bare]: the table owns no bucket array (constructed with size 0, moved from, or cleared while it
      held entries, and nothing inserted since). *)
  Record stab : Type := mkS { smap : fmap K (ptr * V); bare : bool }.
  Record world : Type := mkW { tabs : list stab; next : nat }.

  Inductive wop : Type :=
  | WNew (size : N)             (* HashTable t(size); tables are numbered in order of creation *)
  | WInsert (i : nat) (k : K)   (* p = t_i.insert(k, exist) *)
  | WWrite (p : ptr) (v : V)    (* p->setValue(v) *)
  | WRead (p : ptr)             (* p->key(), p->value() *)
  | WFind (i : nat) (k : K)     (* &*t_i.find(k), or end() *)
  | WErase (i : nat) (k : K)
  | WSize (i : nat)
  | WClear (i : nat)
  | WRehash (i : nat)           (* t_i.rehash() *)
  | WRehashTo (i : nat) (n : N) (* t_i.rehash(n) *)
  | WCopy (i : nat)             (* HashTable t(t_i) *)
  | WAssign (i j : nat)         (* t_i = t_j *)
  | WMove (i : nat)             (* HashTable t(std::move(t_i)) *)
  | WMoveAssign (i j : nat).    (* t_i = std::move(t_j) *)

  Inductive wanswer : Type :=
  | RDone
  | RInsert (exist : bool) (p : ptr)
  | REntry (k : K) (v : V)
  | RFind (p : option ptr)
  | RErase (found : bool)
  | RSize (n : N).

  Fixpoint set_tab (l : list stab) (i : nat) (t : stab) : list stab :=
    match l, i with
    | [], _ => []
    | _ :: l', O => t :: l'
    | x :: l', S i' => x :: set_tab l' i' t
    end.

  Definition tab (w : world) (i : nat) : option stab := nth_error (tabs w) i.

  (** [m'] has the keys and values of [m] in entries with new, distinct addresses. *)
  Definition fresh_copy (m m' : fmap K (ptr * V)) (n n' : nat) : Prop :=
    NoDup (map fst m') /\
    (forall k, option_map snd (get keqb m' k) = option_map snd (get keqb m k)) /\
    NoDup (map (fun e => fst (snd e)) m') /\
    (forall k p v, get keqb m' k = Some (p, v) -> (n <= p < n')%nat) /\ (n <= n')%nat.

  Inductive wstep : world -> wop -> wanswer -> world -> Prop :=
  | SNew w size : size < 2^28 ->
      wstep w (WNew size) RDone (mkW (tabs w ++ [mkS [] (size =? 0)]) (next w))
  | SInsertOld w i k m b p v : tab w i = Some (mkS m b) -> get keqb m k = Some (p, v) ->
      wstep w (WInsert i k) (RInsert true p) w
  | SInsertNew w i k m b p : tab w i = Some (mkS m b) -> get keqb m k = None -> (next w <= p)%nat ->
      wstep w (WInsert i k) (RInsert false p)
        (mkW (set_tab (tabs w) i (mkS (put keqb m k (p, dflt)) false)) (S p))
  | SWrite w i k m b p v v' : tab w i = Some (mkS m b) -> get keqb m k = Some (p, v) ->
      wstep w (WWrite p v') RDone (mkW (set_tab (tabs w) i (mkS (put keqb m k (p, v')) b)) (next w))
  | SRead w i k m b p v : tab w i = Some (mkS m b) -> get keqb m k = Some (p, v) ->
      wstep w (WRead p) (REntry k v) w
  | SFind w i k m b : tab w i = Some (mkS m b) ->
      wstep w (WFind i k) (RFind (option_map fst (get keqb m k))) w
  | SErase w i k m b : tab w i = Some (mkS m b) ->
      wstep w (WErase i k) (RErase (has keqb m k))
        (mkW (set_tab (tabs w) i (mkS (del keqb m k) b)) (next w))
  | SSize w i m b : tab w i = Some (mkS m b) ->
      wstep w (WSize i) (RSize (card m)) w
  | SClear w i m b : tab w i = Some (mkS m b) ->
      wstep w (WClear i) RDone
        (mkW (set_tab (tabs w) i (mkS [] (if card m =? 0 then b else true))) (next w))
  | SRehash w i m b : tab w i = Some (mkS m b) ->
      wstep w (WRehash i) RDone w
  | SRehashTo w i n m b : tab w i = Some (mkS m b) -> card m < n < 2^28 ->
      wstep w (WRehashTo i n) RDone (mkW (set_tab (tabs w) i (mkS m false)) (next w))
  | SCopy w i m m' n' : tab w i = Some (mkS m false) -> fresh_copy m m' (next w) n' ->
      wstep w (WCopy i) RDone (mkW (tabs w ++ [mkS m' false]) n')
  | SAssign w i j t m m' n' : i <> j -> tab w i = Some t -> tab w j = Some (mkS m false) ->
      fresh_copy m m' (next w) n' ->
      wstep w (WAssign i j) RDone (mkW (set_tab (tabs w) i (mkS m' false)) n')
  | SMove w i t : tab w i = Some t ->
      wstep w (WMove i) RDone (mkW (set_tab (tabs w) i (mkS [] true) ++ [t]) (next w))
  | SMoveAssign w i j t t' : i <> j -> tab w i = Some t -> tab w j = Some t' ->
      wstep w (WMoveAssign i j) RDone
        (mkW (set_tab (set_tab (tabs w) i t') j (mkS [] true)) (next w)).

  (** the operation has a meaning in [w] *)
  Definition enabled (w : world) (o : wop) : Prop := exists a w', wstep w o a w'.

  Inductive wexec : world -> list wop -> list wanswer -> world -> Prop :=
  | ENil w : wexec w [] [] w
  | ECons w o a w1 l as_ w2 : wstep w o a w1 -> wexec w1 l as_ w2 -> wexec w (o :: l) (a :: as_) w2.

  Definition world0 : world := mkW [] 0.

  (** ** Vocabulary for statements about executions *)

  (** entry of key [k] at address [p] *)
  Definition holds (st : stab) (k : K) (p : ptr) : Prop := exists v, get keqb (smap st) k = Some (p, v).
  Definition own (l : list stab) (i : nat) (k : K) (p : ptr) : Prop :=
    exists st, nth_error l i = Some st /\ holds st k p.

  (** table [i] binds [k] to [v] in the entry at address [p] *)
  Definition entry_at (w : world) (i : nat) (k : K) (p : ptr) (v : V) : Prop :=
    exists st, tab w i = Some st /\ get keqb (smap st) k = Some (p, v).

  (** operations that may end the life of the entry of key [k] in table [i] *)
  Definition ends (i : nat) (k : K) (o : wop) : Prop :=
    match o with
    | WErase j k' => j = i /\ k' = k
    | WClear j => j = i
    | WAssign j _ => j = i
    | WMove j => j = i
    | WMoveAssign j j' => j = i \/ j' = i
    | _ => False
    end.

  (** value read through [p] after [l], [v] being the value before *)
  Fixpoint last_write (p : ptr) (l : list wop) (v : V) : V :=
    match l with
    | [] => v
    | WWrite q v' :: l' => last_write p l' (if Nat.eqb q p then v' else v)
    | _ :: l' => last_write p l' v
    end.

  (** the operation is a call on table [c] that may change it *)
  Definition targets (c : nat) (o : wop) : Prop :=
    match o with
    | WInsert i _ | WErase i _ | WClear i | WRehash i | WRehashTo i _ | WMove i => i = c
    | WAssign i _ => i = c
    | WMoveAssign i j => i = c \/ j = c
    | WNew _ | WWrite _ _ | WRead _ | WFind _ _ | WSize _ | WCopy _ => False
    end.

  (** [o] neither works on table [c] nor writes through a pointer to one of its entries in [w] *)
  Definition leaves (w : world) (c : nat) (o : wop) : Prop :=
    ~ targets c o /\ forall p v k, o = WWrite p v -> ~ own (tabs w) c k p.

  Definition contents (w : world) (c : nat) (k : K) : option V :=
    match tab w c with Some st => option_map snd (get keqb (smap st) k) | None => None end.

  (** same keys and values *)
  Definition contents_eq (w : world) (c : nat) (w' : world) (c' : nat) : Prop :=
    forall k, contents w c k = contents w' c' k.
End Spec.
Arguments wop : clear implicits.
Arguments wanswer : clear implicits.
Arguments stab : clear implicits.
Arguments world : clear implicits.
