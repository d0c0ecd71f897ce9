(** Storage taken by copies and given back by destruction. *)
From Verif Require Import Base ValueSpec ValueModel ValueProof ValueProof2 ValueProof3 ValueProof4 ValueProof5 ValueProof6.
From Coq Require Import List NArith ZArith Bool Lia Arith.
Import ListNotations.

(** what the destructor gives back *)
Fixpoint freed (t : tree) : nat :=
  match t with
  | TUndef | TBool _ | TInt _ => 0
  | TStr _ | TArr _ => 1
  | TObj ms => S (list_sum (map (fun m => freed (snd m)) ms))
  end.

Section TreeInd.
  Variable P : tree -> Prop.
  Hypothesis HU : P TUndef. Hypothesis HB : forall b, P (TBool b). Hypothesis HI : forall z, P (TInt z). Hypothesis HS : forall s, P (TStr s).
  Hypothesis HA : forall l, Forall P l -> P (TArr l). Hypothesis HO : forall ms, Forall (fun m => P (snd m)) ms -> P (TObj ms).
  Fixpoint tree_ind2 (t : tree) : P t :=
    match t with
    | TUndef => HU | TBool b => HB b | TInt z => HI z | TStr s => HS s
    | TArr l => HA l ((fix go l := match l return Forall P l with [] => Forall_nil _ | x :: r => Forall_cons _ (tree_ind2 x) (go r) end) l)
    | TObj ms => HO ms ((fix go l := match l return Forall (fun m => P (snd m)) l with [] => Forall_nil _ | x :: r => Forall_cons _ (tree_ind2 (snd x)) (go r) end) ms)
    end.
End TreeInd.
Lemma freed_blocks t : freed t <= blocks t /\ (freed t = blocks t <-> plain t = true).
Proof.
  induction t as [| | | |l H|ms H] using tree_ind2; cbn [freed blocks plain]; try (split; [lia|split; auto; lia]); try (split; [lia|split; [lia|discriminate]]).
  - split; [lia|]. clear H. assert (G : forall l, list_sum (map blocks l) = 0 <-> forallb (fun c => match c with TUndef | TBool _ => true | _ => false end) l = true).
    { induction l0 as [|c l0 IH]; cbn; [tauto|]. rewrite andb_true_iff, <- IH. fold (list_sum (map blocks l0)). destruct c; cbn [blocks]; split; intros G; try (split; [reflexivity|lia]); try lia; destruct G; try discriminate; lia. }
    rewrite <- G. lia.
  - assert (G : list_sum (map (fun m => freed (snd m)) ms) <= list_sum (map (fun m => blocks (snd m)) ms) /\ (list_sum (map (fun m => freed (snd m)) ms) = list_sum (map (fun m => blocks (snd m)) ms) <-> forallb (fun m => plain (snd m)) ms = true)).
    { induction H as [|m ms [H1 H2] _ [I1 I2]]; [split; [apply le_n|split; reflexivity]|]. cbn [map forallb]. change (list_sum (?a :: ?b)) with (a + list_sum b). rewrite andb_true_iff, <- H2, <- I2. lia. }
    destruct G as [G1 G2]. rewrite <- G2. lia.
Qed.

Lemma in_use_app h e : in_use (h ++ e) = in_use h + in_use e.
Proof. unfold in_use. rewrite filter_app. apply app_length. Qed.
Lemma in_use_set h a b : in_use (set_block h a b) = in_use h.
Proof.
  unfold set_block. destruct (nth_error h a) as [[b0|b0|]|] eqn:E; auto; apply nth_error_split in E as (h1 & h2 & -> & <-); rewrite set_nth_split; unfold in_use; rewrite !filter_app; rewrite !app_length; reflexivity.
Qed.
Lemma in_use_release h a b : a <> 0 -> cell_at h a b -> in_use (set_nth a Dead h) + 1 = in_use h.
Proof.
  unfold cell_at. intros Ha E. destruct (Nat.eqb_spec a 0); [lia|]. apply nth_error_split in E as (h1 & h2 & -> & <-). rewrite set_nth_split. change (Dead :: h2) with ([Dead] ++ h2). change (Heap b :: h2) with ([Heap b] ++ h2). rewrite !in_use_app. cbn. lia.
Qed.

Lemma sum_snd {A} (f : A -> nat) (ms : list (bytes * A)) : list_sum (map (fun m => f (snd m)) ms) = list_sum (map f (map snd ms)).
Proof. now rewrite map_map. Qed.
Lemma copy_count fuel : forall h v t A h' o, owns h v t A -> copy fuel h v = Ret (h', o) -> exists e, h' = h ++ e /\ in_use e = blocks t.
Proof.
  induction fuel as [|f IH]; intros h v t A h' o Ho E; [discriminate|].
  assert (HL : forall vs ts A h0 h' vs', owns_list h0 vs ts A -> copy_list (copy f) h0 vs = Ret (h', vs') -> exists e, h' = h0 ++ e /\ in_use e = list_sum (map blocks ts)).
  { induction vs as [|v1 vs IHl]; intros ts B h0 h1 vs' Hl E1; inversion Hl as [|? t1 A1 ? ts1 B1 Hv Hl1]; subst; cbn [copy_list] in E1.
    - injection E1 as <- <-. exists []. rewrite app_nil_r. auto.
    - apply bind_ret in E1 as ([h2 o2] & E2 & E1). apply bind_ret in E1 as ([h3 vs3] & E3 & E1). injection E1 as <- <-. destruct (IH _ _ _ _ _ _ Hv E2) as (e1 & -> & C1).
      destruct (IHl _ _ _ _ _ (owns_list_grow _ e1 _ _ _ Hl1) E3) as (e2 & -> & C2). exists (e1 ++ e2). rewrite app_assoc, in_use_app. cbn [map]. change (list_sum (?a :: ?b)) with (a + list_sum b). split; auto. }
  destruct Ho as [p|b|a z Hc|a s Hc|a vs ts A Hc Hl|a ms mt A Hc Hfst Hnd Hl]; cbn [copy v_kind v_hold deref] in E; try rewrite (cell_live _ _ _ Hc) in E; cbn [bind] in E.
  - injection E as <- <-. exists []. rewrite app_nil_r. auto.
  - injection E as <- <-. exists []. rewrite app_nil_r. auto.
  - injection E as <- <-. eexists. split; reflexivity.
  - injection E as <- <-. eexists. split; reflexivity.
  - apply bind_ret in E as ([h1 vs1] & E1 & E). injection E as <- <-. destruct (HL _ _ _ _ _ _ Hl E1) as (e & -> & C). exists (e ++ [Heap (BArr vs1)]). rewrite app_assoc, in_use_app, C. split; auto. cbn. lia.
  - apply bind_ret in E as ([h1 vs1] & E1 & E). injection E as <- <-. destruct (HL _ _ _ _ _ _ Hl E1) as (e & -> & C). exists (e ++ [Heap (BObj (combine (map fst ms) vs1))]). rewrite app_assoc, in_use_app, C. split; auto. cbn [blocks]. rewrite (sum_snd blocks). cbn. lia.
Qed.

Lemma destroy_count fuel : forall h v t A h', owns h v t A -> cnt A 0 = 0 -> (forall x, cnt A x <= 1) -> length A < fuel -> destroy fuel h v = Ret h' -> in_use h' + freed t = in_use h.
Proof.
  induction fuel as [|f IH]; intros h v t A h' Ho H0 Hn Hf E; [lia|].
  assert (HL : forall vs ts A h0 h', owns_list h0 vs ts A -> cnt A 0 = 0 -> (forall x, cnt A x <= 1) -> length A < f -> destroy_list (destroy f) h0 vs = Ret h' ->
    in_use h' + list_sum (map freed ts) = in_use h0 /\ forall x, cnt A x = 0 -> nth_error h' x = nth_error h0 x).
  { induction vs as [|v1 vs IHl]; intros ts B h0 h1 Hl HB0 HBn HBf E1; inversion Hl as [|? t1 A1 ? ts1 B1 Hv Hl1]; subst; cbn [destroy_list] in E1.
    - injection E1 as <-. cbn. split; auto.
    - apply bind_ret in E1 as (h2 & E2 & E1). rewrite app_length in HBf. rewrite cnt_app in HB0. assert (Hn1 : forall x, cnt A1 x + cnt B1 x <= 1) by (intros x; specialize (HBn x); rewrite cnt_app in HBn; lia).
      assert (HA1 : forall x, cnt A1 x <= 1) by (intros x; specialize (Hn1 x); lia). destruct (destroy_ok f h0 v1 t1 A1 Hv ltac:(lia) HA1 ltac:(lia)) as (h2' & E2' & _ & F2). rewrite E2 in E2'. injection E2' as <-.
      pose proof (IH _ _ _ _ _ Hv ltac:(lia) HA1 ltac:(lia) E2) as C2.
      destruct (IHl ts1 B1 h2 h1) as [C1 F1]; auto. { apply (frame_list h0); auto. intros a Ha. apply F2. apply cnt_in in Ha. specialize (Hn1 a). lia. } { lia. } { intros x. specialize (Hn1 x). lia. } { lia. }
      cbn [map]. change (list_sum (?a :: ?b)) with (a + list_sum b). split; [lia|]. intros x Hx. rewrite cnt_app in Hx. rewrite F1, F2; auto; lia. }
  assert (Hrel : forall (h1 h2 : heap) a b, a <> 0 -> cell_at h1 a b -> release h1 a = Ret h2 -> in_use h2 + 1 = in_use h1).
  { intros h1 h2 a b Ha Hc. unfold release. pose proof Hc as Hc'. unfold cell_at in Hc'. rewrite Hc'. destruct (Nat.eqb_spec a 0); [lia|]. intros G. injection G as <-. eapply in_use_release; eauto. }
  destruct Ho as [p|b|a z Hc|a s Hc|a vs ts A Hc Hl|a ms mt A Hc Hfst Hnd Hl]; cbn [destroy v_kind v_hold deref] in E; cbn [freed].
  - injection E as <-. lia.
  - injection E as <-. lia.
  - injection E as <-. lia.
  - assert (a <> 0) by (intros ->; rewrite cnt_one in H0; lia). rewrite (cell_live _ _ _ Hc) in E. cbn [bind] in E. eapply Hrel; eauto.
  - rewrite (cnt_cons _ A) in H0. assert (a <> 0) by (intros ->; rewrite cnt_one in H0; lia). rewrite (cell_live _ _ _ Hc) in E. cbn [bind] in E. eapply Hrel; eauto.
  - cbn [length] in Hf. assert (Hn1 : forall x, cnt [a] x + cnt A x <= 1) by (intros x; specialize (Hn x); rewrite (cnt_cons _ A) in Hn; lia).
    rewrite (cnt_cons _ A) in H0. assert (a <> 0) by (intros ->; rewrite cnt_one in H0; lia). rewrite (cell_live _ _ _ Hc) in E. cbn [bind] in E. apply bind_ret in E as (h1 & E1 & E).
    destruct (HL _ _ _ _ _ Hl ltac:(lia) ltac:(intros x; specialize (Hn1 x); lia) ltac:(lia) E1) as [C1 F1].
    assert (Hc1 : cell_at h1 a (BObj ms)). { eapply cell_frame; [|exact Hc]. apply F1. specialize (Hn1 a). rewrite cnt_one in Hn1. lia. }
    pose proof (Hrel _ _ _ _ H Hc1 E). rewrite (sum_snd freed). lia.
Qed.

Lemma step_copy_count s e x p t s' : inv s e -> eget e p = Found t -> step_op s (Copy x p) = Ret s' -> in_use (s_mem s') = in_use (s_mem s) + blocks t.
Proof.
  destruct s as [al h]. intros (A & Hi) Eg E. cbn [s_alive s_mem] in *. destruct (at_place _ _ _ _ _ _ Hi Eg) as (a & sl & b & v0 & A0 & Ar & Hp & _ & Hc & Hs & Hl & Ho & _).
  cbn [step_op s_mem s_alive] in E. rewrite Hp in E. cbn [bind] in E. rewrite Hl in E. cbn [bind] in E. apply bind_ret in E as ([h1 w] & E1 & E). unfold copy_construct in E1. apply bind_ret in E1 as ([h2 o] & E2 & E1). injection E1 as <- <-.
  destruct (copy_count _ _ _ _ _ _ _ Ho E2) as (ex & -> & C). unfold begin_var in E. destruct (nth_error al x) as [[]|]; try discriminate. apply bind_ret in E as (h3 & E3 & E). injection E as <-. cbn [s_mem].
  unfold store in E3. apply bind_ret in E3 as (b3 & _ & E3). destruct (slot b3 _); [|discriminate]. injection E3 as <-. rewrite in_use_set, in_use_app. lia.
Qed.
Lemma step_destroy_count s e x t s' : inv s e -> eget e (x, []) = Found t -> step_op s (Destroy x) = Ret s' -> in_use (s_mem s') + freed t = in_use (s_mem s).
Proof.
  destruct s as [al h]. intros (A & Hi) Eg E. cbn [s_alive s_mem] in *. destruct (at_place _ _ _ _ _ _ Hi Eg) as (a & sl & b & v0 & A0 & Ar & Hp & _ & Hc & Hs & Hl & Ho & Hcnt & _ & Hz & _).
  cbn [step_op s_mem s_alive] in E. rewrite Hp in E. cbn [bind] in E. rewrite Hl in E. cbn [bind] in E. apply bind_ret in E as (h1 & E1 & E). apply bind_ret in E as (h2 & E2 & E). injection E as <-. cbn [s_mem].
  unfold store in E2. apply bind_ret in E2 as (b3 & _ & E3). destruct (slot b3 _); [|discriminate]. injection E3 as <-. rewrite in_use_set.
  assert (Hn : forall y, cnt A0 y <= 1). { intros y. destruct Hi as (_ & _ & _ & Hn). specialize (Hn y). rewrite Hcnt in Hn. lia. }
  apply (destroy_count (fuel_of h) h v0 t A0); auto. unfold fuel_of. pose proof (owned_fits _ _ _ _ Ho Hn). lia.
Qed.

(** a copy is made and destroyed *)
Theorem copy_destroy n objs prog e log x p t : arun (env0 n) prog = Some (e, log) -> eget e p = Found t -> is_fresh e x = true ->
  exists s s1 s2, run (state0 n objs) prog = Ret (s, log) /\ step_op s (Copy x p) = Ret s1 /\ step_op s1 (Destroy x) = Ret s2 /\
    in_use (s_mem s1) = in_use (s_mem s) + blocks t /\ in_use (s_mem s2) + freed t = in_use (s_mem s) + blocks t.
Proof.
  intros Hr Eg Hf. destruct (run_sim prog _ _ _ _ (inv0 n objs) Hr) as (s & E & Hi).
  pose proof (step_sim s e (Copy x p) Hi) as H1. cbn [astep_of] in H1. rewrite Eg, Hf in H1. destruct H1 as (s1 & E1 & Hi1). pose proof (step_copy_count _ _ _ _ _ _ Hi Eg E1) as C1.
  pose proof (fresh_alive _ _ Hf) as Hx. assert (Hxl : x < length (e_alive e)) by (apply nth_error_Some; congruence).
  assert (Ha : is_alive (e_alive (evar e x true t)) x = true). { unfold is_alive, evar. cbn [e_alive]. apply nth_error_nth. now apply set_nth_same. }
  pose proof (step_sim s1 _ (Destroy x) Hi1) as H2. cbn [astep_of] in H2. rewrite Ha in H2. destruct H2 as (s2 & E2 & _).
  destruct (env_alive _ _ _ Hi1 Ha) as (t' & En & Eg'). assert (t' = t) as ->. { unfold evar in En. cbn [e_vars] in En. rewrite set_nth_same in En; [congruence|]. destruct Hi as (? & _ & Hlen & _). lia. }
  pose proof (step_destroy_count _ _ _ _ _ Hi1 Eg' E2) as C2. exists s, s1, s2. repeat split; auto. lia.
Qed.

(** ** What is not changed stays *)
Lemma eset_other e p u x : fst p <> x -> nth_error (e_vars (eset e p u)) x = nth_error (e_vars e) x.
Proof. intros H. unfold eset, full, whole. cbn [e_vars tset child]. destruct (nth_error (e_vars e) (fst p)); cbn [set_child vars_of]; auto. now apply set_nth_other. Qed.
Lemma alive_other l x y b : y <> x -> is_alive (set_nth y b l) x = is_alive l x.
Proof.
  intros H. unfold is_alive. revert x y H. induction l as [|c l IH]; intros [|x] [|y] H; cbn [set_nth nth]; auto; try lia.
Qed.
Lemma step_other e o e' r x : astep e o = Some (e', r) -> changes x o = false -> nth_error (e_vars e') x = nth_error (e_vars e) x /\ is_alive (e_alive e') x = is_alive (e_alive e) x.
Proof.
  destruct o; cbn [astep_of changes]; intros H C; try discriminate; try (apply orb_false_iff in C as [C C2]; apply Nat.eqb_neq in C2); apply Nat.eqb_neq in C;
    repeat match type of H with context [match ?d with _ => _ end] => destruct d; try discriminate end; injection H as <- <-; auto;
    unfold evar; cbn [e_vars e_alive eset]; try (rewrite alive_other by auto); try (rewrite set_nth_other by auto); auto;
    change (mkEnv (e_alive e) ?v) with (mkEnv (e_alive e) v); (split; [|reflexivity]); now apply (eset_other e p).
Qed.
Lemma run_other l : forall e e' log x, arun e l = Some (e', log) -> forallb (fun o => negb (changes x o)) l = true -> nth_error (e_vars e') x = nth_error (e_vars e) x /\ is_alive (e_alive e') x = is_alive (e_alive e) x.
Proof.
  induction l as [|o l IH]; intros e e' log x H C; cbn [arun_of forallb] in *.
  - injection H as <- <-. auto.
  - apply andb_prop in C as [C1 C2]. destruct (astep e o) as [[e1 r]|] eqn:E; [|discriminate]. destruct (arun e1 l) as [[e2 rs]|] eqn:E2; [|discriminate]. injection H as <- <-. apply negb_true_iff in C1.
    destruct (step_other _ _ _ _ _ E C1) as [<- <-]. eapply IH; eauto.
Qed.
Lemma arun_app l1 : forall l2 e e1 log1 e2 log2, arun e l1 = Some (e1, log1) -> arun e1 l2 = Some (e2, log2) -> arun e (l1 ++ l2) = Some (e2, log1 ++ log2).
Proof.
  induction l1 as [|o l IH]; intros l2 e e1 log1 e2 log2 H H2; cbn [arun_of app] in *.
  - injection H as <- <-. exact H2.
  - destruct (astep e o) as [[e' y]|]; [|discriminate]. destruct (arun e' l) as [[e'' ys]|] eqn:E; [|discriminate]. injection H as -> <-. rewrite (IH _ _ _ _ _ _ E H2). reflexivity.
Qed.

Theorem copy_kept n objs prog1 prog2 e1 log1 e2 log2 x p t :
  arun (env0 n) prog1 = Some (e1, log1) -> eget e1 p = Found t -> arun e1 (Copy x p :: prog2) = Some (e2, log2) -> forallb (fun o => negb (changes x o)) prog2 = true ->
  exists s, run (state0 n objs) (prog1 ++ Copy x p :: prog2) = Ret (s, log1 ++ log2) /\ content s x = Ret t.
Proof.
  intros H1 Hg H2 C. pose proof (arun_app _ _ _ _ _ _ _ H1 H2) as H. destruct (run_sim _ _ _ _ _ (inv0 n objs) H) as (s & E & Hi). exists s. split; [exact E|].
  destruct (run_sim prog1 _ _ _ _ (inv0 n objs) H1) as (s0 & _ & Hi0).
  cbn [arun_of astep_of] in H2. rewrite Hg in H2. destruct (is_fresh e1 x) eqn:Hf; [|discriminate]. destruct (arun (evar e1 x true t) prog2) as [[e3 l3]|] eqn:E3; [|discriminate]. injection H2 as -> <-.
  destruct (run_other _ _ _ _ _ E3 C) as [V A]. pose proof (fresh_alive _ _ Hf) as Hx. assert (Hxl : x < length (e_alive e1)) by (apply nth_error_Some; congruence).
  assert (Ha : is_alive (e_alive e2) x = true). { rewrite A. unfold is_alive, evar. cbn [e_alive]. apply nth_error_nth. now apply set_nth_same. }
  destruct (env_alive _ _ _ Hi Ha) as (t' & G1 & G2). rewrite (content_ok _ _ _ _ Hi G2). rewrite V in G1. unfold evar in G1. cbn [e_vars] in G1. rewrite set_nth_same in G1; [congruence|]. destruct Hi0 as (? & _ & Hlen & _). lia.
Qed.
