(** Properties C27-C32, C49, C54, C55, C60: EniBase, the C interface and the reverse operation.

    Argument texts are shorter than 2^28 bytes (see JsonProps.v).  [readable lay] is the documented
    grammar with the boolean literals the address layout lets the parser recognise. *)
From Coq Require Import String.
From Verif Require Import Base JsonSpec JsonModel JsonDenotes JsonProof2 JsonProof3 EniModel EniProof EniServe EniProof2.
From Coq Require Import List NArith ZArith Bool Lia.
From Coq.Init Require Import Byte.
From Coq.Strings Require Import Byte.
Import ListNotations.
Local Open Scope list_scope.

Definition T (s : string) : bytes := list_byte_of_string s.
Definition q : bytes := [x22].
Definition low : layout := mkL 1000 10 20.
Definition high : layout := mkL 1000 2000 2010.

(** a class taking one integer, refusing negative ones; run appends the double *)
Definition twice : opclass :=
  mkOp Z 0%Z
    (fun s args => match args with JInt z :: _ => (z, Ret (0 <=? z)%Z) | _ => (s, Ret false) end)
    (fun s => Ret (Z.to_N s))
    (fun s l => (s, l ++ [JInt (2 * s)], Ret true)).

(** ** C27: order of the calls *)

(** The calls of the virtual functions in any history: parse calls that threw, then at most one parse
    call that returned; after [true] only gas and run calls, after [false] nothing.  Without throwing
    parse calls there is exactly one parse call at most.  Missing: parse is called again after it threw. *)
Theorem C27_once_partial :
  forall (c : opclass) lay text st h st' answers,
    construct c lay text = Ret st -> erun st h = Ret (st', answers) ->
    exists k rest,
      e_log st' = repeat (EParse None) k ++ rest /\
      (rest = [] \/ rest = [EParse (Some false)] \/
       exists l, rest = EParse (Some true) :: l /\ (forall e, In e l -> e = EGas \/ e = ERun)) /\
      ((forall s args e, snd (oparse c s args) <> Throw e) -> k = 0).
Proof. exact eni_order. Qed.
Print Assumptions C27_once_partial.

(** The reverse operation on an empty argument array: parse is called by each getGas. *)
Theorem C27_once_refuted :
  forall lay n, exists st st',
    construct reverse_op lay (T "[]") = Ret st /\
    erun st (repeat GetGas n) = Ret (st', repeat (Threw OutOfRangeVector) n) /\
    e_log st' = repeat (EParse None) n.
Proof. exact reverse_reparse. Qed.
Print Assumptions C27_once_refuted.

Example C27_example :
  exists st st', construct twice low (T "[21]") = Ret st /\
    erun st [GetGas; Start; GetGas; Start] = Ret (st', [GasIs 21; ResultIs (Some (T "[42]")); GasIs 21; ResultIs (Some (T "[42,42]"))]) /\
    e_log st' = [EParse (Some true); EGas; ERun; EGas; ERun].
Proof. eexists. eexists. split; [vm_compute; reflexivity|]. split; vm_compute; reflexivity. Qed.

(** ** C28: rejected arguments *)
Theorem C28_rejected :
  forall (c : opclass) lay text st args s' h,
    construct c lay text = Ret st -> e_args st = JArr args -> oparse c (oinit c) args = (s', Ret false) ->
    exists st', erun st h = Ret (st', map (fun o => match o with GetGas => GasIs 1500 | Start => ResultIs None end) h).
Proof. exact eni_rejected. Qed.
Print Assumptions C28_rejected.

Example C28_example :
  exists st st', construct twice low (T "[-5]") = Ret st /\
    erun st [Start; GetGas; GetGas; Start] = Ret (st', [ResultIs None; GasIs 1500; GasIs 1500; ResultIs None]).
Proof. eexists. eexists. split; vm_compute; reflexivity. Qed.

(** ** C29: start() is repeatable — refuted *)

(** The i-th start() of the reverse operation returns an array of i copies: the text is a different
    one each time. *)
Theorem C29_repeatable_refuted :
  forall lay text s l r, (N.of_nat (length text) < 2^28)%N -> gval (readable lay) text (AArr (AStr s :: l)) r ->
    exists st st' t1 t2,
      construct reverse_op lay text = Ret st /\
      erun st [Start; Start] = Ret (st', [ResultIs (Some t1); ResultIs (Some t2)]) /\
      gval documented t1 (AArr [AStr (rev s)]) [] /\
      gval documented t2 (AArr [AStr (rev s); AStr (rev s)]) [] /\
      t1 <> t2.
Proof. exact reverse_start_twice. Qed.
Print Assumptions C29_repeatable_refuted.

(** What holds: start() on a new object depends on the class and the text only, and for a class whose
    run leaves the same array and the same answer whatever array and data it finds after a first run,
    all start() calls answer the same.  Missing: classes that append to the array, as all of the
    repository's do. *)
Theorem C29_repeatable_partial :
  forall (c : opclass) lay text st n st' answers,
    (forall s l s' l' b, orun c s l = (s', l', Ret b) -> orun c s' l' = (s', l', Ret b)) ->
    (forall s args e, snd (oparse c s args) <> Throw e) ->
    (forall s l s' l' e, orun c s l <> (s', l', Throw e)) ->
    construct c lay text = Ret st -> erun st (repeat Start n) = Ret (st', answers) ->
    exists a, answers = repeat a n.
Proof. exact start_repeatable. Qed.
Print Assumptions C29_repeatable_partial.

(** [twice] with assignment in place of appending *)
Definition twice_set : opclass :=
  mkOp (ost twice) (oinit twice) (oparse twice) (ogas twice) (fun s _ => (s, [JInt (2 * s)], Ret true)).
Example C29_example :
  (forall s l s' l' b, orun twice_set s l = (s', l', Ret b) -> orun twice_set s' l' = (s', l', Ret b)) /\
  exists st st', construct twice_set low (T "[4]") = Ret st /\
    erun st (repeat Start 3) = Ret (st', repeat (ResultIs (Some (T "[8]"))) 3).
Proof.
  split; [intros s l s' l' b H; cbn in *; injection H as <- <- <-; reflexivity|].
  eexists. eexists. split; vm_compute; reflexivity.
Qed.

(** ** C30: gas queries do not influence the result *)

(** For classes whose parse does not throw.  Missing: those whose parse throws, see below. *)
Theorem C30_gas_query_partial :
  forall (c : opclass) lay text st n st' answers,
    (forall s args e, snd (oparse c s args) <> Throw e) ->
    construct c lay text = Ret st -> erun st (repeat GetGas n ++ [Start]) = Ret (st', answers) ->
    exists gs r st'', answers = gs ++ [r] /\ erun st [Start] = Ret (st'', [r]).
Proof. intros c lay text st n st' answers H _. exact (gas_then_start n st st' answers H). Qed.
Print Assumptions C30_gas_query_partial.

(** A class that counts its parse calls and throws in the first: start() alone throws, after a getGas()
    it succeeds. *)
Theorem C30_gas_query_refuted :
  exists (c : opclass) st st1 st2 r,
    construct c low (T "[]") = Ret st /\
    erun st [Start] = Ret (st1, [Threw StdOutOfRange]) /\
    erun st [GetGas; Start] = Ret (st2, [Threw StdOutOfRange; ResultIs (Some r)]).
Proof.
  exists (mkOp bool false (fun s _ => (true, if s then Ret true else Throw StdOutOfRange)) (fun _ => Ret 0%N) (fun s l => (s, l, Ret true))).
  do 4 eexists. split; [vm_compute; reflexivity|]. split; vm_compute; reflexivity.
Qed.
Print Assumptions C30_gas_query_refuted.

Example C30_example :
  (forall s args e, snd (oparse twice s args) <> Throw e) /\
  exists st st', construct twice low (T "[7]") = Ret st /\
    erun st (repeat GetGas 3 ++ [Start]) = Ret (st', [GasIs 7; GasIs 7; GasIs 7; ResultIs (Some (T "[14]"))]).
Proof.
  split; [intros s args e; destruct args as [|[]]; cbn; discriminate|].
  eexists. eexists. split; vm_compute; reflexivity.
Qed.

(** ** C31: malformed argument text *)

(** Texts outside the documented grammar end the process with status 87 in every layout, before any
    virtual function is called; texts of the grammar do not, if the booleans in them can be read.
    Missing: layouts in which a boolean literal cannot be read. *)
Theorem C31_exit_partial :
  forall (c : opclass) lay text, (N.of_nat (length text) < 2^28)%N ->
    ((forall a r, ~ gval documented text a r) -> construct c lay text = Exit 87) /\
    (forall a r, gval documented text a r -> good_layout lay \/ ~ has_bool a -> short_keys a ->
       exists st, construct c lay text = Ret st /\ denotes (e_args st) a /\ e_log st = []).
Proof. exact eni_exit. Qed.
Print Assumptions C31_exit_partial.

(** The text [true] in brackets, with the literal above the text in memory. *)
Theorem C31_exit_refuted :
  forall (c : opclass) lay, (a_end lay <= a_rue lay + 2)%N ->
    gval documented (T "[true]") (AArr [ABool true]) [] /\ construct c lay (T "[true]") = Exit 87.
Proof. exact eni_exit_bool. Qed.
Print Assumptions C31_exit_refuted.

Example C31_example :
  construct twice low (T "[1") = Exit 87 /\ construct twice low (T "null") = Exit 87 /\
  exists st, construct twice low (T "[1, [true]]") = Ret st /\ e_args st = JArr [JInt 1; JArr [JBool true]].
Proof. split; [vm_compute; reflexivity|]. split; [vm_compute; reflexivity|]. eexists. split; vm_compute; reflexivity. Qed.

(** ** C49: arguments reach the operation *)

(** A text of an array with the elements [l] is seen by parse as values [vs] that hold [l], in order;
    the gas and the result text of the C interface are what the class makes of [vs].  Missing: object keys
    of 65536 bytes or more, and booleans the layout does not let the parser read (see C31_exit_refuted). *)
Theorem C49_arguments_partial :
  forall (c : opclass) lay buf l r,
    (N.of_nat (length (cstr buf)) < 2^28)%N -> gval (readable lay) (cstr buf) (AArr l) r -> Forall short_keys l ->
    exists vs,
      Forall2 denotes vs l /\
      c_gas c lay buf =
        (let (s, ok) := oparse c (oinit c) vs in
         b <- ok ;; if b then ogas c s else Ret 1500%N) /\
      c_run c lay buf =
        (let (s, ok) := oparse c (oinit c) vs in
         b <- ok ;;
         if b then
           let '(_, out, ok') := orun c s [] in
           b' <- ok' ;; if b' then t <- print (JArr out) ;; Ret (Some (cstr t)) else Ret None
         else Ret None).
Proof. exact protocol. Qed.
Print Assumptions C49_arguments_partial.

Example C49_example :
  c_gas twice low (T "[21]" ++ [NUL; x41]) = Ret 21%N /\ c_run twice low (T " [ 21 , {} ] ") = Ret (Some (T "[42]")) /\
  gval (readable low) (T "[21]") (AArr [AInt 21]) [].
Proof.
  split; [vm_compute; reflexivity|]. split; [vm_compute; reflexivity|].
  apply (G_arr _ [] (T "21]") [AInt 21] []); [constructor|].
  apply (GE_last _ (T "21]") (AInt 21) [] []); [|constructor].
  apply (G_nat _ [] (T "21]") 21 (T "]")); [constructor|].
  apply (GN_pos x32 [x31] (T "]")); [unfold digit; cbn; lia|discriminate| |].
  - repeat constructor; cbn; lia.
  - intros (d & s' & H & Hd). injection H as <- _. unfold digit in Hd. cbn in Hd. lia.
Qed.

(** ** C32: the reverse operation *)

(** Gas and result for every text of an array starting with a string. *)
Theorem C32_reverse :
  forall lay buf s l r,
    (N.of_nat (length (cstr buf)) < 2^28)%N -> gval (readable lay) (cstr buf) (AArr (AStr s :: l)) r ->
    c_gas reverse_op lay buf = Ret (10 * N.of_nat (length s))%N /\
    exists t, c_run reverse_op lay buf = Ret (Some t) /\ gval documented t (AArr [AStr (rev s)]) [].
Proof. exact reverse_result. Qed.
Print Assumptions C32_reverse.

(** Its own output leads back to [s]. *)
Theorem C32_involution :
  forall lay lay' buf s l r t,
    (N.of_nat (length (cstr buf)) < 2^28)%N -> gval (readable lay) (cstr buf) (AArr (AStr s :: l)) r ->
    c_run reverse_op lay buf = Ret (Some t) -> (N.of_nat (length t) < 2^28)%N ->
    exists t', c_run reverse_op lay' t = Ret (Some t') /\ gval documented t' (AArr [AStr s]) [].
Proof. exact reverse_involution. Qed.
Print Assumptions C32_involution.

(** Every byte string has such a text: what the library prints for it. *)
Theorem C32_every_string :
  forall s, exists t, print (JArr [JStr s]) = Ret t /\ cstr t = t /\ gval documented t (AArr [AStr s]) [].
Proof. exact reverse_every_string. Qed.
Print Assumptions C32_every_string.

Example C32_example :
  c_run reverse_op low (T "[" ++ q ++ T "a\nb" ++ [x5c] ++ T "u0000" ++ q ++ T ", 3]") =
    Ret (Some (T "[" ++ q ++ [x5c] ++ T "u0000b" ++ [x5c] ++ T "u000Aa" ++ q ++ T "]")) /\
  c_gas reverse_op low (T "[" ++ q ++ T "Hello World!" ++ q ++ T "]") = Ret 120%N.
Proof. split; vm_compute; reflexivity. Qed.

(** ** C54: argument texts that are not arrays — refuted *)

(** For every class, a JSON text that is a string, number, boolean or object makes both entry points
    use it as an array: undefined behaviour instead of the error gas and NULL. *)
Theorem C54_not_array_refuted :
  forall (c : opclass) lay buf a r,
    (N.of_nat (length (cstr buf)) < 2^28)%N -> gval (readable lay) (cstr buf) a r -> (forall l, a <> AArr l) ->
    c_gas c lay buf = UB TypeConfusion /\ c_run c lay buf = UB TypeConfusion.
Proof. exact not_array. Qed.
Print Assumptions C54_not_array_refuted.

Example C54_example :
  c_run twice low (T "{}") = UB TypeConfusion /\ gval (readable low) (T "{}") (AObj []) [].
Proof. split; [vm_compute; reflexivity|]. apply (G_obj0 _ [] [] []); constructor. Qed.

(** ** C55: missing and wrongly typed arguments — refuted for reverse *)

(** No argument: both entry points let an exception out of the extern C function.  First argument not a
    string: it is used as one. *)
Theorem C55_reverse_refuted :
  forall lay buf l r,
    (N.of_nat (length (cstr buf)) < 2^28)%N -> gval (readable lay) (cstr buf) (AArr l) r -> Forall short_keys l ->
    (l = [] -> c_gas reverse_op lay buf = Throw OutOfRangeVector /\ c_run reverse_op lay buf = Throw OutOfRangeVector) /\
    (forall a l', l = a :: l' -> (forall s, a <> AStr s) ->
       c_gas reverse_op lay buf = UB TypeConfusion /\ c_run reverse_op lay buf = UB TypeConfusion).
Proof. exact reverse_bad_args. Qed.
Print Assumptions C55_reverse_refuted.

Example C55_example :
  c_run reverse_op low (T "[]") = Throw OutOfRangeVector /\ c_gas reverse_op low (T "[1]") = UB TypeConfusion.
Proof. split; vm_compute; reflexivity. Qed.

(** ** C60: answers come from the operation *)

(** Once parse() accepted the arguments, whatever the history of calls: every getGas() answers what gas()
    returns or throws, every start() answers by what run() did in that call: the printed return values
    if it returned true, NULL if it returned false, its exception if it threw. *)
Theorem C60_answers :
  forall (c : opclass) lay text st args s h st' answers,
    construct c lay text = Ret st -> e_args st = JArr args -> oparse c (oinit c) args = (s, Ret true) ->
    erun st h = Ret (st', answers) -> serves c s [] h answers.
Proof. exact serve_first. Qed.
Print Assumptions C60_answers.

(** a class that gives up on zero in run *)
Definition inverse : opclass :=
  mkOp Z 0%Z
    (fun s args => match args with JInt z :: _ => (z, Ret true) | _ => (s, Ret false) end)
    (fun s => Ret 7%N)
    (fun s l => if (s =? 0)%Z then (s, l, Ret false) else ((s - 1)%Z, l ++ [JInt (100 / s)], Ret true)).
Example C60_example :
  exists st st', construct inverse low (T "[2]") = Ret st /\ e_args st = JArr [JInt 2] /\
    oparse inverse (oinit inverse) [JInt 2] = (2%Z, Ret true) /\
    erun st [Start; GetGas; Start; Start] =
      Ret (st', [ResultIs (Some (T "[50]")); GasIs 7; ResultIs (Some (T "[50,100]")); ResultIs None]).
Proof. do 2 eexists. split; [vm_compute; reflexivity|]. split; [reflexivity|]. split; vm_compute; reflexivity. Qed.
