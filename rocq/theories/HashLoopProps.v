(** Property C113: adding to a HashTable while iterating over it. *)
From Verif Require Import Base HashSpec HashModel HashIterSpec HashIterModel HashLoopSpec HashProof2 HashProof5 HashLoopProof.
From Coq Require Import List NArith Bool Lia.
Import ListNotations.
Local Open Scope N_scope.

(** ** A table built by any calls that remove nothing, any loop body that removes nothing. If the entries never fill more than
    three quarters of the buckets the table has when the loop begins, the loop ends after at most as many rounds as there are buckets,
    visits pairs the table holds at that moment and no key twice ([reaches]), visits every entry there was when it began, and the
    table answers afterwards as the finite map the calls lead to. *)
Theorem C113_add_while_iterating :
  forall (K V : Type) (keqb : K -> K -> bool) (hash : K -> N) (dflt : V),
    (forall a b, reflect (a = b) (keqb a b)) ->
    forall (body : list (K * V) -> list (op K V)) size l m answers,
      size < 2^28 -> N.of_nat (length l) <= 2^28 -> Forall adds l -> (forall seen, Forall adds (body seen)) ->
      spec_run keqb dflt [] l = Some (m, answers) ->
      exists t, run keqb hash dflt (new_table size) l = Ret (t, answers) /\
        ((forall seen m1, reaches keqb dflt body m seen m1 -> 4 * card m1 <= 3 * nB t /\ card m1 < 2^28) ->
         exists t' seen m', loop keqb hash dflt body (N.to_nat (nB t)) t = Ret (t', seen) /\
           reaches keqb dflt body m seen m' /\
           (forall k, has keqb m k = true -> In k (map fst seen)) /\
           (forall l2 m2 answers2, card m' + N.of_nat (length l2) <= 2^28 -> spec_run keqb dflt m' l2 = Some (m2, answers2) ->
              exists t2, run keqb hash dflt t' l2 = Ret (t2, answers2))).
Proof.
  intros K V keqb hash dflt H body size l m answers Hs Hl HF HO HS.
  destruct (reached keqb hash dflt H size l m answers Hs Hl HS) as (t & HR & HM & _ & HL). exists t. split; auto. intros HQ.
  assert (HP : Forall plain l) by (eapply Forall_impl; [|exact HF]; intros o; destruct o; cbn; tauto).
  destruct (models_new (V := V) hash size Hs) as [M0 N0].
  assert (HT0 : nT (new_table (E := K * V) size) = 0) by (unfold new_table; destruct (u32 size =? 0); reflexivity).
  assert (HNl : nE (new_table (E := K * V) size) + N.of_nat (length l) <= 2^28) by (rewrite N0; exact Hl).
  destruct (run_nT keqb hash dflt H l _ _ _ _ M0 HNl HT0 HF HS) as (t0 & HR0 & H0).
  rewrite HR in HR0. injection HR0 as <-.
  destruct (loop_adds keqb hash dflt H body m t HO HQ HM (HL HP) H0) as (t' & seen & m' & HW & HX & HY & HM' & _).
  exists t', seen, m'. split; auto. split; auto. split; auto. intros l2 m2 as2 Hl2 HS2.
  destruct (run_ok keqb hash H dflt l2 t' m' m2 as2 HM') as (t2 & HR2 & _); eauto. rewrite (models_card _ _ _ HM'). exact Hl2.
Qed.
Print Assumptions C113_add_while_iterating.

(** The usual case: for each entry visited at most one entry is set, with a key computed from it. [keys] holds all the keys there are
    and all that can be computed from them, and fills at most three quarters of the buckets. *)
Definition adding {K V} (f : K * V -> option (K * V)) (seen : list (K * V)) : list (op K V) :=
  match rev seen with
  | e :: _ => match f e with Some (k, v) => [OpSet k v] | None => [] end
  | [] => []
  end.
Theorem C113_visited :
  forall (K V : Type) (keqb : K -> K -> bool) (hash : K -> N) (dflt : V),
    (forall a b, reflect (a = b) (keqb a b)) ->
    forall (f : K * V -> option (K * V)) (keys : list K) size l m answers,
      size < 2^28 -> N.of_nat (length l) <= 2^28 -> Forall adds l ->
      spec_run keqb dflt [] l = Some (m, answers) ->
      (* all keys there are and those added *)
      (forall k, has keqb m k = true -> In k keys) -> (forall e k v, In (fst e) keys -> f e = Some (k, v) -> In k keys) ->
      exists t, run keqb hash dflt (new_table size) l = Ret (t, answers) /\
        (4 * N.of_nat (length keys) <= 3 * nB t -> N.of_nat (length keys) < 2^28 ->
         exists t' seen, loop keqb hash dflt (adding f) (N.to_nat (nB t)) t = Ret (t', seen) /\
           NoDup (map fst seen) /\ (forall k, has keqb m k = true -> In k (map fst seen)) /\ (forall e, In e seen -> In (fst e) keys)).
Proof.
  intros K V keqb hash dflt H f keys size l m answers Hs Hl HF HS HK Hf.
  assert (HO : forall seen, Forall (adds (V:=V)) (adding f seen)).
  { intros seen. unfold adding. destruct (rev seen) as [|e r]; [constructor|]. destruct (f e) as [[k v]|]; repeat constructor. }
  destruct (C113_add_while_iterating K V keqb hash dflt H (adding f) size l m answers Hs Hl HF HO HS) as (t & HR & HW). exists t. split; auto.
  intros Hroom Hbig.
  assert (HN0 : NoDup (map fst m)). { destruct (reached keqb hash dflt H size l m answers Hs Hl HS) as (t0 & _ & HM & _). apply HM. }
  assert (HQ : forall seen m1, reaches keqb dflt (adding f) m seen m1 ->
    NoDup (map fst m1) /\ (forall k, has keqb m1 k = true -> In k keys) /\ NoDup (map fst seen) /\ (forall e, In e seen -> In (fst e) keys)).
  { intros seen m1 HX. induction HX as [|seen m1 e m2 as_ HX IH Hfr Hrun].
    - split; auto. split; auto. split; [constructor|intros e []].
    - destruct IH as (H1 & H2 & H3 & H4). destruct Hfr as [HG Hni].
      assert (Hek : In (fst e) keys) by (apply H2; unfold has; now rewrite HG).
      unfold adding in Hrun. rewrite rev_app_distr in Hrun. cbn [rev app] in Hrun.
      assert (Hm2 : NoDup (map fst m2) /\ (forall k, has keqb m2 k = true -> In k keys)).
      { destruct (f e) as [[k v]|] eqn:E; cbn in Hrun; injection Hrun as <- _; [|auto]. split.
        - unfold put. cbn [map fst]. constructor; [|now apply del_NoDup]. intros Hin. apply in_map_iff in Hin as (e0 & He0 & Hin).
          apply (in_del keqb H) in Hin. tauto.
        - intros k0. unfold has. rewrite (get_put keqb H). destruct (H k k0) as [<-|_]; [intros _; eapply Hf; eauto|apply H2]. }
      split; [apply Hm2|]. split; [apply Hm2|]. split.
      + rewrite map_app. cbn [map]. apply (Permutation.Permutation_NoDup (Permutation.Permutation_cons_append (map fst seen) (fst e))). constructor; auto.
      + intros e0 Hin. apply in_app_or in Hin as [Hin|[<-|[]]]; auto. }
  destruct HW as (t' & seen & m' & HW & HX & HY & _).
  { intros seen m1 HX. destruct (HQ seen m1 HX) as (H1 & H2 & _).
    assert (Hle : card m1 <= N.of_nat (length keys)).
    { unfold card. rewrite <- (map_length fst m1). assert (HL : (length (map fst m1) <= length keys)%nat); [|lia].
      apply NoDup_incl_length; auto. intros k Hk. apply H2. unfold has. destruct (get keqb m1 k) eqn:G; auto. apply (get_None keqb H) in G. tauto. }
    lia. }
  exists t', seen. split; auto. destruct (HQ seen m' HX) as (_ & _ & H3 & H4). auto.
Qed.
Print Assumptions C113_visited.

(** 8 entries in 67 buckets; the loop adds k + 1 for each k visited below 30: new entries that are ahead are visited, too. *)
Definition ad_history : list (op N N) := map (fun k => OpSet k (10 * k)) [1; 2; 3; 20; 21; 60; 7; 30].
Definition ad_next (e : N * N) : option (N * N) := if fst e <? 30 then Some (fst e + 1, 5) else None.
Example C113_example :
  (t <- omap fst (run N.eqb (fun k => k * 3) 0 (new_table 50) ad_history) ;;
   '(t', seen) <- loop N.eqb (fun k => k * 3) 0 (adding ad_next) (N.to_nat (nB t)) t ;;
   '(_, answers) <- run N.eqb (fun k => k * 3) 0 t' [OpSize; OpFind 4; OpFind 30] ;;
   Ret (nB t, map fst seen, answers)) =
  Ret (67, [1; 2; 3; 4; 5; 6; 7; 30; 8; 9; 10; 11; 12; 13; 14; 15; 60; 16; 17; 18; 19; 20; 21; 22],
       [ASize 25; AFound (Some 5); AFound (Some 300)]).
Proof. vm_compute. reflexivity. Qed.

(** ** If entries were erased before, three quarters are not enough: an entry that stays in the table is not visited. *)
Definition er_history : list (op N N) :=
  map (fun k => OpSet k k) [0; 1; 2; 3; 4; 5; 6; 7; 8; 9; 10; 17] ++ map OpErase [1; 2; 3; 4; 5; 6] ++ [OpSet 13 13; OpSet 14 14].
Definition er_body (seen : list (N * N)) : list (op N N) := match seen with [_; _] => [OpSet 15 15] | _ => [] end.
Theorem C113_erased_refuted :
  exists (size : N) (l : list (op N N)) (body : list (N * N) -> list (op N N)) t t' seen answers m,
    spec_run N.eqb 0 [] l = Some (m, answers) /\ (forall seen, Forall adds (body seen)) /\
    run N.eqb (fun k => k) 0 (new_table size) l = Ret (t, answers) /\
    loop N.eqb (fun k => k) 0 body (N.to_nat (nB t)) t = Ret (t', seen) /\
    4 * nE t' <= 3 * nB t /\
    (exists k, has N.eqb m k = true /\ ~ In k (map fst seen) /\
       omap snd (run N.eqb (fun k => k) 0 t' [OpFind k]) = Ret [AFound (get N.eqb m k)]).
Proof.
  exists 1, er_history, er_body.
  eexists _, _, (map (fun k => (k, k)) [0; 7; 8; 9; 10; 13; 14; 15]), _, _.
  split; [vm_compute; reflexivity|]. split.
  { intros seen. unfold er_body. destruct seen as [|a [|b [|c seen]]]; repeat constructor. }
  split; [vm_compute; reflexivity|]. split; [vm_compute; reflexivity|]. split; [vm_compute; discriminate|].
  exists 17. split; [vm_compute; reflexivity|]. split; [vm_compute; intros H; repeat (destruct H as [H|H]; try discriminate); auto|].
  vm_compute. reflexivity.
Qed.
Print Assumptions C113_erased_refuted.
