(** Property C89: how many buckets a search in a hash table looks at. *)
From Coq Require Import String.
From Verif Require Import Base HashSpec HashModel HasherModel HashProbeSpec HashProbeModel HashProof HashProof2 HashProbeProof HashProbeProof2.
From Verif Require Import StringMapModel StringMapProof JsonSpec JsonModel.
From Coq Require Import List NArith ZArith Bool.
From Coq.Init Require Import Byte.
From Coq.Strings Require Import Byte.
Import ListNotations.
Local Open Scope list_scope.
Local Open Scope N_scope.

(** The full claim: the searches of a history look at a bounded number of buckets per call.  What holds: after any
    history, a call looks at no more buckets than the table has when it returns, for any hash.  Missing: a bound that
    does not grow with the table; see the refutations. *)
Theorem C89_looks_partial :
  forall (K V : Type) (keqb : K -> K -> bool) (hash : K -> N) (dflt : V), (forall a b, reflect (a = b) (keqb a b)) ->
  forall size l o m as_ m' a, size < 2^28 -> N.of_nat (length l) < 2^28 ->
    spec_run keqb dflt [] l = Some (m, as_) -> spec_step keqb dflt m o = Some (m', a) ->
    exists t c t' c', run_p keqb hash dflt (new_table size) l = Ret (t, as_, c) /\ step_p keqb hash dflt t o = Ret (t', a, c') /\
      c' <= nB t'.
Proof.
  intros K V keqb hash dflt H size l o m as_ m' a Hs Hl H1 H2.
  destruct (looks_after keqb hash dflt H size l o m as_ m' a Hs Hl H1 H2) as (t & c & t' & c' & H3 & H4 & H5 & _). exists t, c, t', c'. auto.
Qed.
Print Assumptions C89_looks_partial.

(** A call that searches for a key the table does not have looks at one bucket, or more, for each key it has with the
    same hash. *)
Theorem C89_rivals :
  forall (K V : Type) (keqb : K -> K -> bool) (hash : K -> N) (dflt : V), (forall a b, reflect (a = b) (keqb a b)) ->
  forall size l o k m as_ m' a, size < 2^28 -> N.of_nat (length l) < 2^28 ->
    spec_run keqb dflt [] l = Some (m, as_) -> spec_step keqb dflt m o = Some (m', a) -> searches o k -> get keqb m k = None ->
    exists t c t' c', run_p keqb hash dflt (new_table size) l = Ret (t, as_, c) /\ step_p keqb hash dflt t o = Ret (t', a, c') /\
      rivals hash m k <= c'.
Proof.
  intros K V keqb hash dflt H size l o k m as_ m' a Hs Hl H1 H2 Hk Hg.
  destruct (looks_after keqb hash dflt H size l o m as_ m' a Hs Hl H1 H2) as (t & c & t' & c' & H3 & H4 & _ & H5). exists t, c, t', c'. auto.
Qed.
Print Assumptions C89_rivals.

(** The counted calls are those of the model. *)
Theorem C89_same_calls :
  forall (K V : Type) (keqb : K -> K -> bool) (hash : K -> N) (dflt : V) t l,
    omap fst (run_p keqb hash dflt t l) = run keqb hash dflt t l.
Proof. intros. apply run_same. Qed.
Print Assumptions C89_same_calls.

(** The StringMap: for every n there are n lower case keys, of length six times the binary logarithm of n, that
    look at about half of n squared buckets when they are added to a map of any initial size. *)
Theorem C89_string_map_refuted :
  forall n, 1 <= n <= 2^28 ->
  exists ks : list bytes, N.of_nat (length ks) = n /\ NoDup ks /\
    Forall (fun k => Forall lower_case k /\ N.of_nat (length k) = 6 * N.log2_up n) ks /\
    forall (V : Type) (dflt : V) (f : bytes -> V) size, size < 2^28 ->
      exists t as_ c, run_p bytes_eqb hash_SDBM dflt (new_table size) (map (fun k => OpSet k (f k)) ks) = Ret (t, as_, c) /\
        n * n <= 2 * c + n.
Proof. exact string_map_flood. Qed.
Print Assumptions C89_string_map_refuted.

(** The JSON parser: a text with one object of n members, whose table is the one those n calls give. *)
Theorem C89_json_refuted :
  forall n, 1 <= n <= 2^20 ->
  exists (s : bytes) (ks : list bytes), gval documented s (AObj (map (fun k => (k, AInt 0)) ks)) [] /\
    N.of_nat (length s) = n * (6 * N.log2_up n + 5) + 1 /\ N.of_nat (length ks) = n /\
    forall lay, exists t as_ c, parse lay s = Ret (true, JObj t) /\
      run_p bytes_eqb hash_SDBM JUndef (sm_new 8) (map (fun k => OpSet k (JInt 0)) ks) = Ret (t, as_, c) /\ n * n <= 2 * c + n.
Proof. exact json_text_flood. Qed.
Print Assumptions C89_json_refuted.

(** Four keys of one hash: looked at are 1 + 2 + 3 + 4 buckets.  Finding the fourth looks at four, finding a key
    with another hash at one. *)
Example C89_example :
  let u := list_byte_of_string "zkbaaa" in let v := list_byte_of_string "aaaayi" in
  let add := map (fun k => OpSet k tt) [u ++ u; u ++ v; v ++ u; v ++ v] in
  (exists t, run_p bytes_eqb hash_SDBM tt (new_table 8) add = Ret (t, repeat (ASet false) 4, 10)) /\
  (exists t a, run_p bytes_eqb hash_SDBM tt (new_table 8) (add ++ [OpFind (v ++ v)]) = Ret (t, a, 14)) /\
  (exists t a, run_p bytes_eqb hash_SDBM tt (new_table 8) (add ++ [OpFind u]) = Ret (t, a, 11)) /\
  hash_SDBM (u ++ u) = hash_SDBM (v ++ v).
Proof. cbv zeta. split; [eexists|split; [do 2 eexists|split; [do 2 eexists|]]]; vm_compute; reflexivity. Qed.
