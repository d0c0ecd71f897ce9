(** Cases that meet the hypotheses of theorems about tables, vectors, JSON values and integers. *)
From Coq Require Import String.
From Verif Require Import Base HashSpec HashModel StringMapSpec StringMapModel HasherModel HashProps HashIterSpec HashIterModel HashIterProps HashAllocSpec HashAllocModel HashAllocProps
  HashCostModel HashCostProps HashSizeProps HashProbeSpec HashProbeModel HashProbeProps VectorSpec VectorModel VectorProps JsonSpec JsonModel JsonDenotes JsonProps JsonOrderProps TypesSpec TypesModel TypesProps.
From Coq Require Import List NArith ZArith Bool Permutation Lia.
From Coq.Init Require Import Byte.
From Coq.Strings Require Import Byte.
Import ListNotations.
Local Open Scope N_scope.

(** ** Tables: keys that collide modulo 7 *)
Definition mod7 (k : N) : N := k mod 7.
Definition some_calls : list (op N N) := [OpSet 1 10; OpSet 8 80; OpSet 15 150; OpSet 3 30; OpErase 8].
Definition some_map : fmap N N := match spec_run N.eqb 0 [] some_calls with Some (m, _) => m | None => [] end.
Definition some_answers : list (answer N) := match spec_run N.eqb 0 [] some_calls with Some (_, a) => a | None => [] end.
Lemma some_calls_ok : spec_run N.eqb 0 [] some_calls = Some (some_map, some_answers) /\ card some_map = 3 /\ Forall plain some_calls.
Proof. split; [reflexivity|]. split; [reflexivity|]. repeat constructor. Qed.

Example C17_rehash_case : forall k, exists t,
  run N.eqb mod7 0 (new_table 8) (some_calls ++ [OpRehashTo 4; OpFind k]) = Ret (t, some_answers ++ [ADone; AFound (get N.eqb some_map k)]).
Proof. refine (C17_rehash_keeps_bindings N N N.eqb mod7 0 N.eqb_spec 8 some_calls some_map some_answers (OpRehashTo 4) eq_refl _ eq_refl _); [discriminate|]. right. exists 4. repeat split. Qed.
Example C18_rehash_case : forall k, exists t,
  run N.eqb mod7 0 (new_table 0) (some_calls ++ [OpRehashTo 200; OpFind k]) = Ret (t, some_answers ++ [ADone; AFound (get N.eqb some_map k)]).
Proof. refine (C18_rehash_partial N N N.eqb mod7 0 N.eqb_spec 0 some_calls some_map some_answers 200 eq_refl _ eq_refl _); [discriminate|repeat split]. Qed.
Example C19_case : exists t es, run N.eqb mod7 0 (new_table 8) some_calls = Ret (t, some_answers) /\ traverse 3 t = Ret es /\ Permutation es some_map.
Proof.
  destruct (C19_iteration_exactly_once N N N.eqb mod7 0 N.eqb_spec 8 some_calls some_map some_answers eq_refl ltac:(discriminate) eq_refl) as (t & es & H1 & H2 & H3 & _). exists t, es. auto.
Qed.
Example C20_case : exists t, run N.eqb mod7 0 (new_table 8) some_calls = Ret (t, some_answers) /\
  count fst N.eqb mod7 t 1 = Ret 2 /\ count fst N.eqb mod7 t 4 = Ret 0.
Proof.
  destruct (C20_count_partial N N N.eqb mod7 0 N.eqb_spec 8 some_calls some_map some_answers eq_refl ltac:(discriminate) eq_refl) as (t & H1 & H2). exists t. split; [exact H1|].
  split; [exact (proj1 (H2 1) eq_refl eq_refl)|exact (proj1 (proj2 (H2 4)) eq_refl eq_refl ltac:(discriminate))].
Qed.
(** a loop that erases multiples of three *)
Example C65_erase_if_case : exists t t' seen m',
  run N.eqb mod7 0 (new_table 8) some_calls = Ret (t, some_answers) /\
  loop N.eqb mod7 0 (erasing (fun e => fst e mod 3 =? 0)) 3 t = Ret (t', seen) /\
  Permutation seen some_map /\ Permutation m' [(1, 10)].
Proof.
  destruct (C65_erase_if N N N.eqb mod7 0 N.eqb_spec (fun e => fst e mod 3 =? 0) 8 some_calls some_map some_answers eq_refl eq_refl (proj2 (proj2 some_calls_ok)) eq_refl) as (t & t' & seen & m' & H1 & H2 & H3 & H4 & _).
  exists t, t', seen, m'. auto.
Qed.
(** a body that erases, overwrites and looks up *)
Lemma it_body_obeys m : obeys N.eqb 0 it_body m.
Proof.
  intros seen m1 [k v] _ [H _]. unfold it_body. rewrite rev_app_distr. cbn [rev app]. destruct (N.even k); cbn [quiet_run quiet]; [split; [exact I|]; destruct (spec_step N.eqb 0 m1 (OpErase k)) as [[m2 a]|]; [|exact I]; cbn [quiet_run]; split; [exact I|]; destruct (spec_step _ _ _ _) as [[? ?]|]; exact I|].
  cbn [fst snd] in H. split; [unfold has; now rewrite H|]. destruct (spec_step N.eqb 0 m1 _) as [[m2 a]|]; [|exact I]. cbn [quiet_run]. split; [exact I|]. destruct (spec_step N.eqb 0 m2 _) as [[m3 b]|]; [|exact I]. split; [exact I|]. destruct (spec_step _ _ _ _) as [[? ?]|]; exact I.
Qed.
Example C65_change_case : exists t t' seen m',
  run N.eqb mod7 0 (new_table 8) some_calls = Ret (t, some_answers) /\ loop N.eqb mod7 0 it_body 3 t = Ret (t', seen) /\
  reaches N.eqb 0 it_body some_map seen m' /\ all_seen N.eqb seen m'.
Proof.
  destruct (C65_change_while_iterating N N N.eqb mod7 0 N.eqb_spec it_body 8 some_calls some_map some_answers eq_refl eq_refl (proj2 (proj2 some_calls_ok)) eq_refl (it_body_obeys _)) as (t & t' & seen & m' & H1 & H2 & H3 & H4 & _).
  exists t, t', seen, m'. auto.
Qed.
(** five allocations succeed, and no more: overwriting works, adding does not *)
Example C67_case :
  exists t c, (let '(t0, c0) := a_new (fun i => Nat.ltb i 5) 0 8 in a_run N.eqb mod7 0 (fun i => Nat.ltb i 5) c0 t0 some_calls) = Ret (t, some_answers, c) /\ Nat.ltb c 5 = false /\
    adds N.eqb some_map (OpSet 1 11) = false /\ (exists t', a_step N.eqb mod7 0 (fun i => Nat.ltb i 5) c t (OpSet 1 11) = Ret (t', ASet true, c)) /\
    adds N.eqb some_map (OpSet 2 22) = true /\ a_step N.eqb mod7 0 (fun i => Nat.ltb i 5) c t (OpSet 2 22) = UB NullDeref.
Proof.
  destruct (let '(t0, c0) := a_new (fun i => Nat.ltb i 5) 0 8 in a_run N.eqb mod7 0 (fun i => Nat.ltb i 5) c0 t0 some_calls) as [[[t as_] c]| | | |] eqn:E; try (vm_compute in E; discriminate).
  assert (Ha : as_ = some_answers) by (vm_compute in E; injection E as _ <- _; reflexivity). assert (Hc : Nat.ltb c 5 = false) by (vm_compute in E; injection E as _ _ <-; reflexivity). subst as_.
  exists t, c. split; [reflexivity|]. split; [exact Hc|]. split; [reflexivity|]. split.
  - exact (C67_out_of_memory_partial N N N.eqb mod7 0 N.eqb_spec _ 8 some_calls t some_answers c some_map (OpSet 1 11) _ (ASet true) eq_refl eq_refl (proj2 (proj2 some_calls_ok)) I E eq_refl eq_refl eq_refl).
  - split; [reflexivity|]. exact (C67_out_of_memory_adding N N N.eqb mod7 0 N.eqb_spec _ 8 some_calls t some_answers c some_map (OpSet 2 22) eq_refl eq_refl (proj2 (proj2 some_calls_ok)) I E eq_refl eq_refl Hc).
Qed.
Example C83_quadratic_case : exists t answers c, run_c N.eqb mod7 0 (new_table 8) (map OpInsert (map N.of_nat (seq 0 20))) = Ret (t, answers, c) /\ 20 * 20 <= 280000 * c.
Proof.
  refine (C83_moves_quadratic N N N.eqb mod7 0 N.eqb_spec 8 (map N.of_nat (seq 0 20)) _ _ _); [discriminate| |split; discriminate].
  apply FinFun.Injective_map_NoDup; [intros a b; apply Nat2N.inj|apply seq_NoDup].
Qed.
Example C84_clear_case : run N.eqb mod7 0 (new_table 8) (some_calls ++ [OpClear]) = Ret (new_table 0, some_answers ++ [ADone]).
Proof. refine (C84_clear N N N.eqb mod7 0 N.eqb_spec 8 some_calls some_map some_answers eq_refl _ eq_refl _); discriminate. Qed.
(** 22 is absent and has two rivals, 1 and 15 *)
Example C89_rivals_case : exists t c t' c', run_p N.eqb mod7 0 (new_table 8) some_calls = Ret (t, some_answers, c) /\ step_p N.eqb mod7 0 t (OpFind 22) = Ret (t', AFound None, c') /\ 2 <= c'.
Proof. exact (C89_rivals N N N.eqb mod7 0 N.eqb_spec 8 some_calls (OpFind 22) 22 some_map some_answers some_map (AFound None) eq_refl eq_refl eq_refl eq_refl eq_refl eq_refl). Qed.

(** ** StringMap *)
Definition map_calls : list (mop N) := [MSet [x61] 7; MSet [x62; x00] 8; MErase [x61]].
Example C61_case : exists t, sm_run 0 (sm_new 8) map_calls = Ret (t, snd (map_run 0 [] map_calls)) /\
  forall u, In u [t; sm_copy t; sm_move t] -> exists u', sm_run 0 u [MAt [x61]; MAt [x62; x00]] = Ret (u', [MThrown; MVal 8]).
Proof.
  assert (Hk : forall o k, In o (map_calls ++ [MAt [x61]; MAt [x62; x00]]) -> mop_key o = Some k -> N.of_nat (length k) < 65536).
  { intros o k H E. cbn in H. intuition; subst o; injection E as <-; reflexivity. }
  destruct (C22_string_map_partial N 0 8 map_calls eq_refl ltac:(discriminate)) as (t & E); [intros o k H; apply Hk; apply in_or_app; now left|].
  exists t. split; [exact E|]. intros u Hu. exact (C61_copies_partial N 0 8 map_calls [MAt [x61]; MAt [x62; x00]] t _ (conj eq_refl eq_refl) ltac:(discriminate) Hk E u Hu).
Qed.
(** objects: a member overwritten, one erased *)
Definition object_calls : list (mop jvalue) := [MSet [x61] (JInt 1); MSet [x62] (JArr [JInt 4; JBool true]); MSet [x61] (JStr [x22]); MSet [x63] (JInt 3); MErase [x63]].
Lemma object_keys o k : In o object_calls -> mop_key o = Some k -> In k [[x61]; [x62]; [x63]].
Proof. intros H E. cbn in H. intuition; subst o; injection E as <-; cbn; auto. Qed.
Lemma object_short o k : In o object_calls -> mop_key o = Some k -> N.of_nat (length k) < 65536.
Proof. intros H E. apply (object_keys o k H) in E. cbn in E. intuition; subst k; reflexivity. Qed.
Lemma object_values P k v : In (MSet k v) object_calls -> buildable P v.
Proof. intros H. cbn in H. destruct H as [H|[H|[H|[H|[H|[]]]]]]; try discriminate H; injection H as <- <-; try constructor. intros v [<-|[<-|[]]]; constructor. Qed.
Lemma object_run : exists t answers, sm_run JUndef (sm_new 8) object_calls = Ret (t, answers) /\ nE t = 2.
Proof. do 2 eexists. split; vm_compute; reflexivity. Qed.
Example C13_key_case : exists t answers, sm_run JUndef (sm_new 8) object_calls = Ret (t, answers) /\
  value_key (JObj t) [x61] = Ret (JStr [x22]) /\ value_key (JObj t) [x63] = Throw OutOfRangeKey.
Proof.
  destruct object_run as (t & answers & E & _). exists t, answers. split; [exact E|]. pose proof (C13_key object_calls t answers E ltac:(discriminate) object_short) as H. split; [exact (H [x61])|exact (H [x63])].
Qed.
Example C08_case : exists t tx, buildable (fun k => ~ In x22 k) (JObj t) /\ 0 < nE t /\ print (JObj t) = Ret tx /\
  forall lay, parse lay tx = Ret (false, JUndef) \/ parse lay tx = Ret (true, new_object).
Proof.
  destruct object_run as (t & answers & E & Hn).
  assert (B : buildable (fun k => ~ In x22 k) (JObj t)).
  { apply (B_obj _ object_calls t answers); [apply object_values| |exact object_short|discriminate|exact E]. intros o k H Ek. apply (object_keys o k H) in Ek. cbn in Ek. intuition; subst k; cbn in *; intuition discriminate. }
  destruct (print (JObj t)) as [tx| | | |] eqn:Ep; try (vm_compute in E; injection E as <- _; vm_compute in Ep; discriminate).
  exists t, tx. split; [exact B|]. split; [rewrite Hn; reflexivity|]. split; [exact Ep|]. intros lay.
  assert (L : (N.of_nat (length tx) < 2^28)) by (vm_compute in E; injection E as <- _; vm_compute in Ep; injection Ep as <-; reflexivity).
  refine (C08_object_never_round_trips lay t tx B _ Ep L). rewrite Hn. reflexivity.
Qed.
Example C78_case : exists t answers es ts, sm_run JUndef (sm_new 8) object_calls = Ret (t, answers) /\
  Permutation [([x61], JStr [x22]); ([x62], JArr [JInt 4; JBool true])] es /\
  Forall2 (fun e x => exists p, print (snd e) = Ret p /\ x = fst e ++ [x3a] ++ p) es ts /\
  print (JObj t) = Ret ([x7b; x0a] ++ commas ts ++ [x0a; x7d]).
Proof.
  destruct object_run as (t & answers & E & _). exists t, answers.
  destruct (C78_members_partial object_calls t answers (object_values _) object_short ltac:(discriminate) E) as (es & ts & H1 & H2 & H3). exists es, ts. split; [exact E|]. split; [|split; [exact H2|exact H3]].
  etransitivity; [|exact H1]. vm_compute. first [reflexivity|apply perm_swap].
Qed.
(** numbers *)
Example C10_case : forall lay, parse lay (sign true ++ [x31; x30; x2c]) = Ret (true, JInt (-10)).
Proof.
  intros lay. refine (proj2 (C10_integers_parse lay true [x31; x30; x2c] 10 [x2c] eq_refl _) eq_refl).
  refine (GN_pos x31 [x30] [x2c] _ _ _ _); [unfold digit; vm_compute; split; discriminate|discriminate|constructor; [unfold digit; vm_compute; split; discriminate|constructor]|].
  intros (d & s' & E & H). injection E as <- _. unfold digit in H. vm_compute in H. destruct H as [H _]. now apply H.
Qed.
(** ** Vectors: [1; 2] with room for three *)
Example C23_own_case :
  let v := mkV (Block [Some 1; Some 2; None; None]) 2 3 in let s := mkS [Some v] 2 in
  reached 0 0 4 yes yes s [Some [1; 2]] /\
  vstep 0 0 4 yes yes s (VPush 0 (Elem 1)) = vstep 0 0 4 yes yes s (VPush 0 (Val 2)) /\
  vstep 0 0 4 yes yes s (VResizeWith 0 4 (Elem 1)) = UB DeadObject.
Proof.
  intros v s. assert (R : reached 0 0 4 yes yes s [Some [1; 2]]).
  { pose proof (reached_start 0 0 4 yes yes) as H.
    assert (H1 : reached 0 0 4 yes yes (mkS [Some (mkV (Block [Some 1; Some 2]) 2 2)] 1) [Some [1; 2]]) by (apply (reached_ok _ _ _ _ _ _ _ (VList [1; 2]) _ _ (RObj 0) H); reflexivity).
    apply (reached_ok _ _ _ _ _ _ _ (VReserve 0 3) _ _ RUnit H1); reflexivity. }
  split; [exact R|]. destruct (C23_own_exact N 0 0 4 yes yes eq_refl (fun _ _ => eq_refl) (fun _ _ => eq_refl) s _ 0%nat v [1; 2] 1 2 R eq_refl eq_refl eq_refl) as (H1 & H2 & _).
  split; [exact (H1 eq_refl)|exact (proj1 (H2 4 eq_refl))].
Qed.
Example C25_case :
  let v := mkV (Block [Some 1; Some 2; Some 3; None]) 3 3 in
  (exists v' c, erase_range 0 4 once v 2 0 2 = Ret (v', c, None) /\ velems v' = Ret [3]) /\ erase_range 0 4 once v 2 1 3 = Ret (v, 2%nat, Some OutOfRangeVector).
Proof.
  intros v. pose proof C24_example as R. cbv zeta in R. fold v in R.
  split; [exact (proj1 (C25_erase_partial N 0 0 4 yes once eq_refl (fun _ _ => eq_refl) _ _ 0%nat v [1; 2; 3] 0 2 R eq_refl eq_refl) eq_refl eq_refl)|].
  refine (proj2 (C25_erase_partial N 0 0 4 yes once eq_refl (fun _ _ => eq_refl) _ _ 0%nat v [1; 2; 3] 1 3 R eq_refl eq_refl) _). right. discriminate.
Qed.

(** ** Integers *)
Local Open Scope Z_scope.
Example C74_case :
  let e := EMul (ESub (Num 3) (Num 5)) (Num 7) in
  numerals (in_type U256) e /\ value (compute U256 e) = solidity U256 e /\
  all_results (in_type S256) e /\ value (compute S256 e) = Some (-14) /\ solidity S256 e = Some (-14).
Proof.
  intros e. assert (H : numerals (in_type U256) e) by (vm_compute; intuition discriminate). split; [exact H|]. split; [exact (C74_unsigned U256 e ltac:(discriminate) H)|].
  assert (H' : all_results (in_type S256) e).
  { assert (P : forall z, ((- 2^255 <=? z) && (z <? 2^255))%bool = true -> in_type S256 z) by (intros z Hz; apply andb_prop in Hz; destruct Hz as [H1 H2]; split; [now apply Z.leb_le|now apply Z.ltb_lt]).
    subst e. split; [split; [|split]|split]; try (apply P; reflexivity); intros z Hz; injection Hz as <-; apply P; reflexivity. }
  split; [exact H'|]. exact (C74_signed_partial e H').
Qed.
