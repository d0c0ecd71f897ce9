(** Property C95: paths of keys and indices. *)
From Coq Require Import String.
From Verif Require Import Base JsonSpec JsonModel JsonDenotes JsonPathSpec JsonPathModel JsonPathProof.
From Coq Require Import List NArith ZArith Bool Lia Permutation.
From Coq.Init Require Import Byte.
From Coq.Strings Require Import Byte.
Import ListNotations.
Local Open Scope list_scope.

(** ** C95: a path finds what the text spells there *)

(** Any text with contents [a], any path: the accessors, applied to the parsed value one after the other,
    find what the path leads to in [a], or throw the exception of the first step that leads nowhere. *)
Theorem C95_path :
  forall lay s a r, (N.of_nat (length s) < 2^28)%N -> gval (readable lay) s a r -> short_keys a ->
    exists v, parse lay s = Ret (true, v) /\
      forall p, int_indices p -> observe v p = Ret (follow a p).
Proof. exact path_found. Qed.
Print Assumptions C95_path.

(** Two texts that differ in the spelling and in the order of members only: no path tells them apart. *)
Theorem C95_order :
  forall l1 l2 s1 s2 a1 a2 r1 r2,
    (N.of_nat (length s1) < 2^28)%N -> (N.of_nat (length s2) < 2^28)%N ->
    gval (readable l1) s1 a1 r1 -> gval (readable l2) s2 a2 r2 ->
    short_keys a1 -> short_keys a2 -> reordered a1 a2 ->
    exists v1 v2, parse l1 s1 = Ret (true, v1) /\ parse l2 s2 = Ret (true, v2) /\
      forall p, int_indices p -> observe v1 p = observe v2 p.
Proof. exact same_paths. Qed.
Print Assumptions C95_order.

Definition T (s : string) : bytes := list_byte_of_string s.
Definition q (s : string) : bytes := [x22] ++ T s ++ [x22].

(** an array with an object in an object, and the same members in another order *)
Definition c95_text1 : bytes :=
  T "{" ++ q "a" ++ T ":" ++ q "x" ++ T "," ++ q "b" ++ T ":[{" ++ q "c" ++ T ":" ++ q "y" ++ T "," ++ q "d" ++ T ":" ++ q "" ++ T "}]}".
Definition c95_text2 : bytes :=
  T "{" ++ q "b" ++ T ":[{" ++ q "d" ++ T ":" ++ q "" ++ T "," ++ q "c" ++ T ":" ++ q "y" ++ T "}]," ++ q "a" ++ T ":" ++ q "x" ++ T "}".
Definition c95_a1 : ast :=
  AObj [(T "a", AStr (T "x")); (T "b", AArr [AObj [(T "c", AStr (T "y")); (T "d", AStr [])]])].
Definition c95_a2 : ast :=
  AObj [(T "b", AArr [AObj [(T "d", AStr []); (T "c", AStr (T "y"))]]); (T "a", AStr (T "x"))].

Ltac spell_chars := repeat (first [apply GC_end | apply GC_plain; [discriminate|discriminate|]]).
Ltac spell_key := eapply (GK [] _ _ []); [constructor|spell_chars|constructor].
Ltac spell_string := eapply (G_str _ []); [constructor|spell_chars].

Example C95_example_texts :
  forall lits, gval lits c95_text1 c95_a1 [] /\ gval lits c95_text2 c95_a2 [] /\
    short_keys c95_a1 /\ short_keys c95_a2 /\ reordered c95_a1 c95_a2.
Proof.
  intros lits. split; [|split; [|split; [|split]]].
  - eapply (G_obj lits []); [constructor|]. eapply (GM_cons lits _ _ _ _ []); [spell_key|spell_string|constructor|].
    eapply (GM_last lits _ _ _ _ []); [spell_key| |constructor]. eapply (G_arr lits []); [constructor|].
    eapply (GE_last lits _ _ []); [|constructor]. eapply (G_obj lits []); [constructor|].
    eapply (GM_cons lits _ _ _ _ []); [spell_key|spell_string|constructor|].
    eapply (GM_last lits _ _ _ _ []); [spell_key|spell_string|constructor].
  - eapply (G_obj lits []); [constructor|]. eapply (GM_cons lits _ _ _ _ []); [spell_key| |constructor|].
    + eapply (G_arr lits []); [constructor|]. eapply (GE_last lits _ _ []); [|constructor]. eapply (G_obj lits []); [constructor|].
      eapply (GM_cons lits _ _ _ _ []); [spell_key|spell_string|constructor|].
      eapply (GM_last lits _ _ _ _ []); [spell_key|spell_string|constructor].
    + eapply (GM_last lits _ _ _ _ []); [spell_key|spell_string|constructor].
  - cbn. repeat split; lia.
  - cbn. repeat split; lia.
  - eapply R_obj; [|apply perm_swap|].
    + cbn [map fst]. repeat (apply NoDup_cons; [cbn; intuition discriminate|]). apply NoDup_nil.
    + repeat (apply Forall2_cons; [split; [reflexivity|]|]); [|apply R_same|apply Forall2_nil].
      apply R_arr. apply Forall2_cons; [|apply Forall2_nil].
      eapply R_obj; [|apply perm_swap|].
      * cbn [map fst]. repeat (apply NoDup_cons; [cbn; intuition discriminate|]). apply NoDup_nil.
      * repeat (apply Forall2_cons; [split; [reflexivity|apply R_same]|]). apply Forall2_nil.
Qed.

Definition high : layout := mkL 1000 2000 2010.

(** the inner string, a missing key, an index past the end, the null value *)
Definition c95_paths : list (list access) :=
  [[Key (T "b"); Index 0; Key (T "c")]; [Key (T "b"); Index 0]; [Key (T "b")]; [Key (T "c"); Index 0];
   [Key (T "b"); Index 1]; [Key (T "b"); Index (-1)]; [Key (T "a"); Key (T "b")]].
Example C95_example :
  forall s, In s [c95_text1; c95_text2] ->
    match parse high s with
    | Ret (true, v) =>
        map (observe v) c95_paths =
        map Ret [FStr (T "y"); FObj 2; FArr 1; FNoKey; FNoIndex; FNoIndex; FInt 5]
    | _ => False
    end.
Proof. intros s [<-|[<-|[]]]; vm_compute; reflexivity. Qed.
