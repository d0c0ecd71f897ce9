(** Printing, copying and destroying values on a machine with a finite call stack.  [room] is the number
    of calls of Value::print (of Value's copy constructor and assignment, of ~Value) the stack has room
    for at the same time; the call that finds no room is [Diverge]: the process is killed.  As
    JsonDepthModel.v for the parser. *)
From Verif Require Import Base HashModel StringMapModel JsonModel.
From Coq Require Import List NArith ZArith Bool.
From Coq.Init Require Import Byte.
Import ListNotations.

(** Value.cpp:124-161 Value::print calls Array::print (Array.cpp:27-36) and Object::print
    (Object.cpp:26-41), which call Value::print for their elements. *)
Fixpoint print_in (room : nat) (v : jvalue) : outcome bytes :=
  match room with
  | O => Diverge
  | S room =>
      match v with
      | JArr l => ts <- sequence (map (print_in room) l) ;; Ret (x5b :: commas ts ++ [x5d])
      | JObj t =>
          es <- traverse (S (N.to_nat (nE t))) t ;;
          ts <- sequence (map (fun e => p <- print_in room (snd e) ;; Ret (fst e ++ x3a :: p)) es) ;;
          Ret (x7b :: x0a :: commas ts ++ [x0a; x7d])
      | v => print v
      end
  end.

(** Value.cpp:19-40 and 169-192: a Value is copied by making a new Array or Object.  Vector.tcc:34-39
    copies the elements by assigning Values; HashTable.tcc:16-34 makes a new entry for each entry and
    assigns its value, unless the table is empty. *)
Fixpoint copy_in (room : nat) (v : jvalue) : outcome jvalue :=
  match room with
  | O => Diverge
  | S room =>
      match v with
      | JArr l => l' <- sequence (map (copy_in room) l) ;; Ret (JArr l')
      | JObj t =>
          match tbl t with
          | None => Ret (JObj (mkT (Some []) (nB t) (nE t) (nT t)))
          | Some bs =>
              if (nE t =? 0)%N then Ret (JObj t) else
              bs' <- sequence (map (fun b =>
                       match bslot b with
                       | Full e => w <- copy_in room (snd e) ;; Ret (mkB (bhash b) (Full (stored_key (fst e), w)))
                       | _ => Ret b
                       end) bs) ;;
              Ret (JObj (mkT (Some bs') (nB t) (nE t) (nT t)))
          end
      | v => Ret v
      end
  end.

(** Value.cpp:76-93 ~Value deletes the Array or the Object.  ~Vector (Vector.tcc:47-51, 360-369) frees its
    block and destroys no element; ~HashTable (HashTable.tcc:46-50, 87-107) destroys each entry and with
    it its Value. *)
Fixpoint destroy_in (room : nat) (v : jvalue) : outcome unit :=
  match room with
  | O => Diverge
  | S room =>
      match v with
      | JObj t =>
          if (nE t =? 0)%N then Ret tt else
          match tbl t with
          | None => UB NullDeref
          | Some bs =>
              _ <- sequence (map (fun b => match bslot b with Full e => destroy_in room (snd e) | _ => Ret tt end) bs) ;;
              Ret tt
          end
      | _ => Ret tt
      end
  end.
