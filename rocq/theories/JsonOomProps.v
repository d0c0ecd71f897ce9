(** Property C102: making an EniBase when memory runs out. *)
From Coq Require Import String.
From Verif Require Import Base JsonModel JsonSpec JsonDenotes ValueSpec ValueModel ValueFaultModel JsonHeapSpec JsonHeapModel JsonOomSpec JsonOomModel JsonOomProof7 JsonOomProof9 JsonOomProof10 EniProps.
From Coq Require Import List NArith ZArith Bool Lia Arith.
From Coq.Init Require Import Byte.
Import ListNotations.
Local Open Scope list_scope.

(** In all theorems: [alloc k] says whether the k-th request for memory is granted, for any [alloc]; [c] counts the
    requests made before; [grows] says at which push_back std::vector moves its elements, [lay] where the literals lie in
    memory; [prog] is any program over values run before, of which no value is left; [n] is the number of variables,
    enough for the parser's own.  [base_make_a] gives [(st, c', true)]: the EniBase is made, or [(st, c', false)]:
    std::bad_alloc leaves the constructor.  [short_text]: the model of objects is that of keys shorter than 65536 bytes. *)

(** ** C102 *)

(** Whatever is refused, for every text: an EniBase that is made has m_Args holding what the text denotes and
    m_ReturnValues an empty array, nothing else is left alive, and it is made of a text of the grammar; the process exits,
    if it does, with status 87 and for a text that is not; and no exception but std::bad_alloc leaves the constructor. *)
Theorem C102_right :
  forall alloc grows lay text n objs prog e log c, short_text text -> 7 + 2 * length text <= n -> arun (env0 n) prog = Some (e, log) ->
    (forall x, is_alive (e_alive e) x = false) ->
    exists st, run (state0 n objs) prog = Ret (st, log) /\
      (forall st1 c', base_make_a alloc grows lay text st c = Ret (st1, c', true) ->
         exists a r, gval (readable lay) text a r /\ content st1 v_args = Ret (denote a) /\ content st1 v_rets = Ret (TArr []) /\
           (forall x, x <> v_args -> x <> v_rets -> is_alive (s_alive st1) x = false)) /\
      (forall k, base_make_a alloc grows lay text st c = Exit k -> k = 87%Z /\ forall a r, ~ gval (readable lay) text a r) /\
      (forall x, base_make_a alloc grows lay text st c <> Throw x).
Proof. intros alloc grows lay text n objs prog e log c _. exact (right alloc grows lay text n objs prog e log c). Qed.
Print Assumptions C102_right.

(** For texts of the grammar that repeat a name, if at all, with values of one type: the EniBase is made, or std::bad_alloc
    leaves the constructor and every value made is destroyed, or a null pointer is dereferenced; nothing else.

    Missing: texts not of the grammar with an opening brace (see [C102_no_object_partial]); texts that repeat a name with values of two types, see [C102_replaced_refuted]. *)
Theorem C102_fate_partial :
  forall alloc grows lay text n objs prog e log c a r, short_text text -> 7 + 2 * length text <= n -> arun (env0 n) prog = Some (e, log) ->
    (forall x, is_alive (e_alive e) x = false) ->
    gval (readable lay) text a r -> types_kept a ->
    exists st, run (state0 n objs) prog = Ret (st, log) /\
      ((exists st1 c', base_make_a alloc grows lay text st c = Ret (st1, c', true) /\ base_make grows lay text st = Ret st1) \/
       (exists st1 c', base_make_a alloc grows lay text st c = Ret (st1, c', false) /\ forall x, is_alive (s_alive st1) x = false) \/
       base_make_a alloc grows lay text st c = UB NullDeref).
Proof. intros alloc grows lay text n objs prog e log c a r _. exact (fate alloc grows lay text n objs prog e log c a r). Qed.
Print Assumptions C102_fate_partial.

(** For every text without an opening brace, of the grammar or not: the same, or exit with status 87, and then the text is not
    of the grammar. *)
Theorem C102_no_object_partial :
  forall alloc grows lay text n objs prog e log c, ~ In x7b text -> 7 + 2 * length text <= n -> arun (env0 n) prog = Some (e, log) ->
    (forall x, is_alive (e_alive e) x = false) ->
    exists st, run (state0 n objs) prog = Ret (st, log) /\
      ((exists st1 c', base_make_a alloc grows lay text st c = Ret (st1, c', true) /\ base_make grows lay text st = Ret st1) \/
       (exists st1 c', base_make_a alloc grows lay text st c = Ret (st1, c', false) /\ forall x, is_alive (s_alive st1) x = false) \/
       base_make_a alloc grows lay text st c = UB NullDeref \/
       base_make_a alloc grows lay text st c = Exit 87 /\ forall a r, ~ gval (readable lay) text a r).
Proof. intros alloc grows lay text n objs prog e log c Hb Hn Hr Hd. exact (fate_no_object alloc grows lay text n objs prog e log c Hn Hr Hd Hb). Qed.
Print Assumptions C102_no_object_partial.

(** If no request is refused the constructor does what C64 says of it. *)
Theorem C102_enough :
  forall alloc grows lay text n objs prog e log c, (forall k, alloc k = true) ->
    short_text text -> 7 + 2 * length text <= n -> arun (env0 n) prog = Some (e, log) -> (forall x, is_alive (e_alive e) x = false) ->
    exists st, run (state0 n objs) prog = Ret (st, log) /\
      ((forall a r, ~ gval (readable lay) text a r) -> base_make_a alloc grows lay text st c = Exit 87) /\
      (forall a r, gval (readable lay) text a r ->
         exists st1 c', base_make_a alloc grows lay text st c = Ret (st1, c', true) /\ base_make grows lay text st = Ret st1 /\
           content st1 v_args = Ret (denote a) /\ content st1 v_rets = Ret (TArr [])).
Proof. intros alloc grows lay text n objs prog e log c Ha _. exact (enough alloc grows lay text n objs prog e log c Ha). Qed.
Print Assumptions C102_enough.

(** The claim that without memory the constructor throws std::bad_alloc is false: every text that is an object has the
    null pointer dereferenced if the first request, which is for the buckets, is refused and the second is not. *)
Theorem C102_crash_refuted :
  forall alloc grows lay text n objs prog e log ms r, alloc 0 = false -> alloc 1 = true ->
    short_text text -> 7 + 2 * length text <= n -> arun (env0 n) prog = Some (e, log) -> (forall x, is_alive (e_alive e) x = false) ->
    gval (readable lay) text (AObj ms) r ->
    exists st, run (state0 n objs) prog = Ret (st, log) /\ base_make_a alloc grows lay text st 0 = UB NullDeref.
Proof. intros alloc grows lay text n objs prog e log ms r H0 H1 _. exact (object_crash alloc grows lay H0 H1 text n objs prog e log ms r). Qed.
Print Assumptions C102_crash_refuted.

(** ** Cases *)
Definition near : layout := mkL 1000 10 20.
Definition dq : bytes := [x22].
Definition flat : bytes := T "[true]".
(** an object with one name twice, a string and then an array *)
Definition twice : bytes := T "{" ++ dq ++ T "a" ++ dq ++ T ":" ++ dq ++ T "x" ++ dq ++ T "," ++ dq ++ T "a" ++ dq ++ T ":[]}".
(** an object with one name twice, each time a string, and an array in an array *)
Definition same : bytes := T "[{" ++ dq ++ T "a" ++ dq ++ T ":" ++ dq ++ T "x" ++ dq ++ T "," ++ dq ++ T "a" ++ dq ++ T ":" ++ dq ++ T "y" ++ dq ++ T "},[5]]".
Definition all (_ : nat) : bool := true.
Definition but (k n : nat) : bool := negb (n =? k)%nat.

(** number of requests, made or not, and what m_Args holds if it is made *)
Definition try (alloc : nat -> bool) (text : bytes) : outcome (nat * option tree) :=
  r <- base_make_a alloc (fun _ => true) near text (state0 (7 + 2 * length text) []) 0 ;;
  (let '(st, c, ok) := r in if ok then t <- content st v_args ;; Ret (c, Some t) else Ret (c, None)).

Lemma short_enough s : (N.of_nat (length s) < 65536)%N -> short_text s.
Proof. intros Hs pre t k r -> Hk. apply JsonProof.gkey_len in Hk. rewrite app_length in Hs. lia. Qed.
Ltac spell := repeat first [apply GC_end | apply GC_plain; [discriminate|discriminate|]].
Ltac key := match goal with |- gkey (x22 :: ?s) _ _ => apply (GK [] s _ []); [constructor|spell|constructor] end.
Ltac out d := let t := eval vm_compute in d in change d with t.
Lemma twice_grammar lits : gval lits twice (AObj [([x61], AStr [x78]); ([x61], AArr [])]) [].
Proof.
  out twice. apply (G_obj lits []); [constructor|]. eapply (GM_cons lits _ _ _ _ []); [key| |constructor|].
  - eapply (G_str lits []); [constructor|]. cbn [app]. spell.
  - eapply (GM_last lits _ _ _ _ []); [key| |constructor]. apply (G_arr0 lits [] []); constructor.
Qed.
Definition same_ast : ast := AArr [AObj [([x61], AStr [x78]); ([x61], AStr [x79])]; AArr [AInt 5]].
Lemma same_grammar lits : gval lits same same_ast [].
Proof.
  out same. apply (G_arr lits []); [constructor|]. eapply (GE_cons lits _ _ []); [|constructor|].
  - apply (G_obj lits []); [constructor|]. eapply (GM_cons lits _ _ _ _ []); [key| |constructor|].
    + eapply (G_str lits []); [constructor|]. cbn [app]. spell.
    + eapply (GM_last lits _ _ _ _ []); [key| |constructor]. eapply (G_str lits []); [constructor|]. cbn [app]. spell.
  - eapply (GE_last lits _ _ []); [|constructor]. apply (G_arr lits []); [constructor|]. apply (GE_last lits _ (AInt (Z.of_N 5)) []); [|constructor].
    apply (G_nat lits []); [constructor|]. apply (GN_pos x35 [] (T "]]")); [vm_compute; split; discriminate|discriminate|constructor|].
    intros (d & s' & E & H1 & H2). injection E as <- _. apply H2. reflexivity.
Qed.

(** types_kept is needed: the replacement of the string by a copy of the array fails after the type was changed, and the
    destructor, run for the exception, takes the string for an array. *)
Theorem C102_replaced_refuted :
  exists alloc grows lay text n a r, short_text text /\ 7 + 2 * length text <= n /\ gval (readable lay) text a r /\
    base_make_a alloc grows lay text (state0 n []) 0 = UB TypeConfusion.
Proof.
  exists (but 33), (fun _ => true), near, twice, (7 + 2 * length twice), (AObj [([x61], AStr [x78]); ([x61], AArr [])]), [].
  split; [apply short_enough; vm_compute; reflexivity|]. split; [lia|]. split; [apply twice_grammar|]. vm_compute. reflexivity.
Qed.
Print Assumptions C102_replaced_refuted.

(** the hypotheses of C102_fate_partial, and its three results *)
Example C102_hypotheses : short_text same /\ gval (readable near) same same_ast [] /\ types_kept same_ast.
Proof.
  split; [apply short_enough; vm_compute; reflexivity|]. split; [apply same_grammar|]. cbn. repeat split.
  intros k v w [E|[E|[]]] [F|[F|[]]]; injection E as _ <-; injection F as _ <-; reflexivity.
Qed.
Example C102_cases :
  try all flat = Ret (16, Some (TArr [TBool true])) /\
  (** the first request is for an Array, the second for the room of an Array that stays empty *)
  try (but 0) flat = Ret (1, None) /\ try (but 1) flat = Ret (16, Some (TArr [TBool true])) /\
  (** the ninth for the room of the copy of an Array, which is written to *)
  try (but 8) flat = UB NullDeref /\ try (but 15) flat = Ret (16, None) /\
  try (but 0) twice = UB NullDeref /\ try all twice = Ret (56, Some (TObj [(T "a", TArr [])])) /\
  try all same = Ret (112, Some (denote same_ast)) /\ try (but 39) same = Ret (40, None) /\ try (but 38) same = UB NullDeref.
Proof. vm_compute. repeat split. Qed.
(** a text that ends too early: the exit, the exception and the null pointer *)
Definition early : bytes := T "[[true],".
Example C102_early : ~ In x7b early /\ try all early = Exit 87 /\ try (but 0) early = Ret (1, None) /\ try (but 20) early = Ret (21, None) /\ try (but 18) early = UB NullDeref.
Proof. split; [intros H; vm_compute in H; repeat (destruct H as [H|H]; [discriminate|]); exact H|]. vm_compute. repeat split. Qed.
