(** Property C110: the JSON example and texts that are no documents.

    [jsmn_reports jsmn data b e ts]: jsmn reports the tokens [ts] for the text between [b] and [e], whatever that text is.
    [tidy b e ts]: they are ranges of that text, in its order, each after or inside the earlier ones (JsonAnySpec.v). *)
From Coq Require Import String.
From Verif Require Import Base JsonSpec JsonModel JsonDenotes EniModel JsonExSpec JsonExModel JsonAnySpec JsonAnyProof.
From Verif Require JsonExProps JsonKindProps.
From Coq Require Import List NArith ZArith Bool Lia.
From Coq.Init Require Import Byte.
From Coq.Strings Require Import Byte.
Import ListNotations.

Definition T (s : string) : bytes := list_byte_of_string s.
Definition q : bytes := [x22].
Definition low : layout := mkL 1000 10 20.

(** The answers are about [tops]: the tokens after the first that stand inside no other of these and begin no later than the first
    one ends.  They lie in the range that was asked about. *)
Theorem C110_tops :
  forall b e t0 ts, tidy b e (t0 :: ts) ->
    exists cs, tops t0 ts cs /\ Forall (fun t => b <= fst (text_range t) < snd (text_range t) /\ snd (text_range t) <= e)%Z cs.
Proof. exact tops_exist. Qed.
Print Assumptions C110_tops.

(** parseArray gives their ranges, *)
Theorem C110_parseArray :
  forall jsmn to_int inner, (forall z, is_int z -> to_int z = z) ->
  forall lay buf data b e t0 ts cs more r, (N.of_nat (length (cstr buf)) < 2^28)%N ->
    gval (readable lay) (cstr buf) (AArr (AStr n_parseArray :: AStr data :: AInt b :: AInt e :: more)) r -> Forall short_keys more ->
    (0 <= b)%Z -> (e <= len data)%Z -> jsmn_reports jsmn data b e (t0 :: ts) -> tidy b e (t0 :: ts) -> tops t0 ts cs ->
    exists out h, c_run (json_op jsmn to_int inner) lay buf = Ret (Some out) /\ one_string_text out h /\ length h = 16 * length cs /\
      forall i t, nth_error cs i = Some t -> spells_range (firstn 16 (skipn (16 * i) h)) (fst (text_range t)) (snd (text_range t)).
Proof. exact call_any_array. Qed.
Print Assumptions C110_parseArray.

(** arrayGet that of one of them, or it reads outside the vector; *)
Theorem C110_arrayGet :
  forall jsmn to_int inner, (forall z, is_int z -> to_int z = z) ->
  forall lay buf data b e t0 ts cs i more r, (N.of_nat (length (cstr buf)) < 2^28)%N ->
    gval (readable lay) (cstr buf) (AArr (AStr n_arrayGet :: AStr data :: AInt b :: AInt e :: AInt i :: more)) r -> Forall short_keys more -> is_int i ->
    (0 <= b)%Z -> (e <= len data)%Z -> jsmn_reports jsmn data b e (t0 :: ts) -> tidy b e (t0 :: ts) -> tops t0 ts cs ->
    (forall n t, i = Z.of_nat n -> nth_error cs n = Some t ->
       exists out h, c_run (json_op jsmn to_int inner) lay buf = Ret (Some out) /\ one_string_text out h /\ spells_range h (fst (text_range t)) (snd (text_range t))) /\
    ((i < 0 \/ Z.of_nat (length cs) <= i)%Z -> c_run (json_op jsmn to_int inner) lay buf = UB OutOfBounds).
Proof. exact call_any_get. Qed.
Print Assumptions C110_arrayGet.

(** objectGet takes them two by two, and uses as a string what stands in the place of a key and is read as something else. *)
Theorem C110_objectGet :
  forall jsmn to_int inner, (forall z, is_int z -> to_int z = z) ->
  forall lay buf data b e t0 ts cs ps rest k more r, (N.of_nat (length (cstr buf)) < 2^28)%N ->
    gval (readable lay) (cstr buf) (AArr (AStr n_objectGet :: AStr data :: AInt b :: AInt e :: AStr k :: more)) r -> Forall short_keys more ->
    (0 <= b)%Z -> (e <= len data)%Z -> jsmn_reports jsmn data b e (t0 :: ts) -> tidy b e (t0 :: ts) -> tops t0 ts cs -> by_two inner data cs ps rest ->
    (length rest <= 1 -> exists out h, c_run (json_op jsmn to_int inner) lay buf = Ret (Some out) /\ one_string_text out h /\
       match last_of k ps with Some t => spells_range h (fst (text_range t)) (snd (text_range t)) | None => h = repeat x30 16 end) /\
    (forall t v rest', rest = t :: v :: rest' -> no_key inner data t -> c_run (json_op jsmn to_int inner) lay buf = UB TypeConfusion).
Proof. exact call_any_object. Qed.
Print Assumptions C110_objectGet.

(** There is no third case. *)
Theorem C110_cases :
  forall inner data b e t0 ts cs, (0 <= b)%Z -> (e <= Z.of_nat (length data))%Z -> (N.of_nat (length data) + 1 < 2^28)%N -> tidy b e (t0 :: ts) -> tops t0 ts cs ->
    exists ps rest, by_two inner data cs ps rest /\ (length rest <= 1 \/ exists t v rest', rest = t :: v :: rest' /\ no_key inner data t).
Proof. exact (by_two_total (fun _ _ _ => UB OutOfBounds)). Qed.
Print Assumptions C110_cases.

(** The documented tokens of a document are tidy. *)
Theorem C110_documents :
  forall data b e root, document data b e root -> tidy b e (tokens_of root).
Proof. exact document_tidy. Qed.
Print Assumptions C110_documents.

(** Two arrays without anything between them, and an object with a name that is not quoted: the second array is answered as an
    element of the first; the value of the name is found under the empty key. *)
Ltac tidily :=
  split;
  [ repeat (apply Forall_cons; [unfold solid; cbn; split; [split; [lia|discriminate]|lia]|]); apply Forall_nil
  | repeat (apply FOP_cons;
      [ repeat (apply Forall_cons; [first [left; unfold before; cbn; lia | right; unfold holds; cbn; split; [auto|lia]]|]); apply Forall_nil | ]);
    apply FOP_nil ].
Example C110_example :
  let two := T "[1][2]" in let bare := T "{a:1}" in
  let tt := [mkTok TArray 0 3; mkTok TPrimitive 1 2; mkTok TArray 3 6; mkTok TPrimitive 4 5] in
  let bt := [mkTok TObject 0 5; mkTok TPrimitive 1 2; mkTok TPrimitive 3 4] in
  let jsmn d b e := if bytes_eqb d two then Ret (4%Z, tt) else if bytes_eqb d bare then Ret (3%Z, bt) else JsonExProps.some_jsmn d b e in
  let op := json_op jsmn (fun z => z) (fun _ => low) in
  jsmn_reports jsmn two 0 6 tt /\ tidy 0 6 tt /\ tops (mkTok TArray 0 3) (tl tt) [mkTok TPrimitive 1 2; mkTok TArray 3 6] /\
  jsmn_reports jsmn bare 0 5 bt /\ tidy 0 5 bt /\ tops (mkTok TObject 0 5) (tl bt) (tl bt) /\
  by_two (fun _ => low) bare (tl bt) [([], mkTok TPrimitive 3 4)] [] /\
  c_run op low (JsonExProps.ask (T "parseArray") two (T "0,6")) = JsonExProps.answer (T "00000001000000020000000300000006") /\
  c_run op low (JsonExProps.ask (T "arrayGet") two (T "0,6,1")) = JsonExProps.answer (T "0000000300000006") /\
  c_run op low (JsonExProps.ask (T "objectGet") two (T "0,6," ++ q ++ q)) = UB TypeConfusion /\
  c_run op low (JsonExProps.ask (T "objectGet") bare (T "0,5," ++ q ++ T "a" ++ q)) = JsonExProps.answer (T "0000000000000000") /\
  c_run op low (JsonExProps.ask (T "objectGet") bare (T "0,5," ++ q ++ q)) = JsonExProps.answer (T "0000000300000004").
Proof.
  intros two bare tt bt jsmn op.
  assert (Htt : tidy 0 6 tt) by tidily. assert (Hbt : tidy 0 5 bt) by tidily.
  split; [vm_compute; reflexivity|]. split; [exact Htt|]. split; [exact (tops_scan _ _ _ _ Htt)|]. split; [vm_compute; reflexivity|]. split; [exact Hbt|]. split; [exact (tops_scan _ _ _ _ Hbt)|].
  split; [apply BT_two; [|constructor]; apply KT_unread; apply JsonKindProps.unread; vm_compute; reflexivity|].
  repeat split; vm_compute; reflexivity.
Qed.
