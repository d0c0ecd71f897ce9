(** Every other operation can be spoilt by a lack of memory. *)
From Verif Require Import Base ValueSpec ValueModel ValueFaultSpec ValueFaultModel ValueProof ValueProof2 ValueProof3 ValueProof4 ValueProof5 ValueProof6 ValueFaultProof.
From Coq Require Import List NArith ZArith Bool Lia Arith.
Import ListNotations.

(** ** Reading a part of what was read *)
Lemma read_kind f h v t : read f h v = Ret t -> kind_of t = v_kind v.
Proof.
  destruct f as [|f]; [discriminate|]. cbn [read]. destruct (v_kind v).
  - intros H. injection H as <-. reflexivity.
  - destruct (v_hold v); try discriminate. intros H. injection H as <-. reflexivity.
  - intros H. apply bind_ret in H as ([a b] & _ & H). destruct b; try discriminate. injection H as <-. reflexivity.
  - intros H. apply bind_ret in H as ([a b] & _ & H). destruct b; try discriminate. injection H as <-. reflexivity.
  - intros H. apply bind_ret in H as ([a b] & _ & H). destruct b; try discriminate. apply bind_ret in H as (ts & _ & H). injection H as <-. reflexivity.
  - intros H. apply bind_ret in H as ([a b] & _ & H). destruct b; try discriminate. apply bind_ret in H as (ts & _ & H). injection H as <-. reflexivity.
Qed.
Lemma read_list_length rd vs : forall ts, read_list rd vs = Ret ts -> length ts = length vs.
Proof. induction vs as [|v vs IH]; intros ts H; cbn [read_list] in H; [injection H as <-; reflexivity|]. apply bind_ret in H as (t & _ & H). apply bind_ret in H as (ts' & E & H). injection H as <-. cbn [length]. now rewrite (IH _ E). Qed.
Lemma read_list_nth rd vs : forall ts n t, read_list rd vs = Ret ts -> nth_error ts n = Some t -> exists v, nth_error vs n = Some v /\ rd v = Ret t.
Proof.
  induction vs as [|v vs IH]; intros ts n t H Hn; cbn [read_list] in H; [injection H as <-; destruct n; discriminate|]. apply bind_ret in H as (t0 & E0 & H). apply bind_ret in H as (ts' & E & H). injection H as <-.
  destruct n as [|n]; cbn [nth_error] in *; [injection Hn as <-; eauto|eapply IH; eauto].
Qed.
Lemma read_list_assoc rd k : forall (ms : list (bytes * val)) ts t, read_list rd (map snd ms) = Ret ts -> assoc k (combine (map fst ms) ts) = Some t -> exists v, assoc k ms = Some v /\ rd v = Ret t.
Proof.
  induction ms as [|[j v] ms IH]; intros ts t H Hn; cbn [map fst snd read_list] in H; [injection H as <-; discriminate|]. apply bind_ret in H as (t0 & E0 & H). apply bind_ret in H as (ts' & E & H). injection H as <-.
  cbn [map fst combine assoc] in *. destruct (bytes_eqb j k); [injection Hn as <-; eauto|eapply IH; eauto].
Qed.
Lemma read_child f h v t s l1 tc : read f h v = Ret t -> enter h v s = Ret l1 -> child s t = Found tc -> exists f' v1, load h l1 = Ret v1 /\ read f' h v1 = Ret tc.
Proof.
  destruct f as [|f]; [discriminate|]. cbn [read]. intros Hr He Hc. unfold enter in He. apply bind_ret in He as ([a b] & Ed & He). assert (Hlive : live h a = Ret b).
  { destruct (v_hold v); cbn [deref] in Ed; try discriminate. apply bind_ret in Ed as (b0 & E & Ed). injection Ed as <- <-. exact E. }
  destruct (v_kind v).
  - injection Hr as <-. destruct s; discriminate.
  - destruct (v_hold v); try discriminate. 
  - rewrite Ed in Hr. cbn [bind] in Hr. destruct b; try discriminate. 
  - rewrite Ed in Hr. cbn [bind] in Hr. destruct b; try discriminate. 
  - rewrite Ed in Hr. cbn [bind] in Hr. destruct b as [| |vs|]; try discriminate. apply bind_ret in Hr as (ts & E & Hr). injection Hr as <-. destruct s as [n|k]; [|discriminate]. cbn [child] in Hc. destruct (nth_error ts n) as [t1|] eqn:En; [|discriminate]. injection Hc as ->.
    destruct (read_list_nth _ _ _ _ _ E En) as (v1 & Hv & Hr). destruct (n <? length vs); [|discriminate]. injection He as <-. exists f, v1. split; auto. unfold load. cbn [fst snd]. rewrite Hlive. cbn [bind slot]. now rewrite Hv.
  - rewrite Ed in Hr. cbn [bind] in Hr. destruct b as [| | |ms]; try discriminate. apply bind_ret in Hr as (ts & E & Hr). injection Hr as <-. destruct s as [n|k]; [discriminate|]. cbn [child] in Hc. destruct (assoc k (combine _ ts)) as [t1|] eqn:En; [|discriminate]. injection Hc as ->.
    destruct (read_list_assoc _ _ _ _ _ E En) as (v1 & Hv & Hr). rewrite Hv in He. injection He as <-. exists f, v1. split; auto. unfold load. cbn [fst snd]. rewrite Hlive. cbn [bind slot]. now rewrite Hv.
Qed.
Lemma read_down h p : forall l v f t l' t0, load h l = Ret v -> read f h v = Ret t -> locate h l p = Ret l' -> tget p t = Found t0 -> exists f' w, load h l' = Ret w /\ read f' h w = Ret t0.
Proof.
  induction p as [|s p IH]; intros l v f t l' t0 Hl Hr Hp Hg; cbn [locate tget] in *.
  - injection Hp as <-. injection Hg as <-. eauto.
  - rewrite Hl in Hp. cbn [bind] in Hp. apply bind_ret in Hp as (l1 & He & Hp). destruct (child s t) as [tc| |] eqn:Ec; try discriminate. destruct (read_child _ _ _ _ _ _ _ Hr He Ec) as (f' & v1 & Hl1 & Hr1). eapply IH; eauto.
Qed.
Lemma shown_part s e p t0 l : shows e (content s) -> s_alive s = e_alive e -> eget e p = Found t0 -> find_place s p = Ret l -> exists f w, load (s_mem s) l = Ret w /\ read f (s_mem s) w = Ret t0.
Proof.
  intros Hs Ha Hg Hp. unfold eget in Hg. destruct (is_alive (e_alive e) (fst p)) eqn:Ea; [|discriminate]. destruct (Hs _ Ea) as (t & En & Hc). unfold content, find_place in *. rewrite Ha, ?Ea in *. cbn [fst snd locate] in Hc. rewrite Ea in Hc. cbn [bind] in Hc. apply bind_ret in Hc as (v & El & Er).
  unfold full, whole in Hg. cbn [tget child] in Hg. rewrite En in Hg. eapply read_down; eauto.
Qed.

Lemma inv_shows s e : inv s e -> shows e (content s).
Proof. intros Hi x Hx. destruct (env_alive _ _ _ Hi Hx) as (t & H1 & H2). exists t. split; [exact H1|exact (content_ok _ _ _ _ Hi H2)]. Qed.

(** ** References after a change that leaves every pointer in place *)
Definition keeps (h h' : heap) : Prop :=
  (forall l v, load h l = Ret v -> exists v', load h' l = Ret v' /\ v_hold v' = v_hold v) /\ (forall v s l, enter h v s = Ret l -> enter h' v s = Ret l).
Lemma keeps_trans h1 h2 h3 : keeps h1 h2 -> keeps h2 h3 -> keeps h1 h3.
Proof. intros [A1 B1] [A2 B2]. split; [|auto]. intros l v H. destruct (A1 _ _ H) as (v1 & H1 & E1). destruct (A2 _ _ H1) as (v2 & H2 & E2). exists v2. split; congruence. Qed.
Lemma keeps_locate h h' : keeps h h' -> forall p l l', locate h l p = Ret l' -> locate h' l p = Ret l'.
Proof.
  intros [A B]. induction p as [|s p IH]; intros l l' H; cbn [locate] in *; auto. apply bind_ret in H as (v & E & H). apply bind_ret in H as (l1 & E1 & H). destruct (A _ _ E) as (v' & -> & Ev). cbn [bind].
  assert (E2 : enter h' v' s = Ret l1). { apply B in E1. unfold enter in *. now rewrite Ev. } rewrite E2. cbn [bind]. auto.
Qed.
Lemma keeps_find al h h' p l : keeps h h' -> find_place (mkS al h) p = Ret l -> find_place (mkS al h') p = Ret l.
Proof. intros K. unfold find_place. cbn [s_alive s_mem]. destruct (is_alive _ _); [|discriminate]. now apply keeps_locate. Qed.
Lemma live_set h a b b' : live h a = Ret b -> live (set_block h a b') a = Ret b'.
Proof.
  unfold live, set_block. destruct (nth_error h a) as [[b0|b0|]|] eqn:E; intros H; try discriminate; rewrite set_nth_same; auto; apply nth_error_Some; congruence.
Qed.
Lemma live_set_other h a b a' : a <> a' -> live (set_block h a b) a' = live h a'.
Proof. intros H. unfold live. now rewrite set_block_other. Qed.
Lemma assoc_set_same {A} k (v : A) ms : assoc k (assoc_set k v ms) = Some v.
Proof. induction ms as [|[j w] ms IH]; cbn [assoc_set assoc]; [now rewrite beq_refl|]. destruct (bytes_eqb j k) eqn:E; cbn [assoc]; rewrite E; auto. Qed.
(** the type of one value is changed *)
Lemma keeps_store h l v k h' : load h l = Ret v -> store h l (mkV k (v_hold v)) = Ret h' -> keeps h h' /\ load h' l = Ret (mkV k (v_hold v)).
Proof.
  destruct l as [a sl]. unfold load at 1, store. cbn [fst snd]. intros Hl Hs. apply bind_ret in Hl as (b & Hb & Hl). rewrite Hb in Hs. cbn [bind] in Hs. destruct (slot b sl) as [v0|] eqn:Es; [|discriminate]. injection Hl as ->. injection Hs as <-.
  set (w := mkV k (v_hold v)). set (b' := set_slot b sl w). assert (Hb' : live (set_block h a b') a = Ret b') by (eapply live_set; eauto). split; [split|].
  - intros [x s] v1. unfold load. cbn [fst snd]. destruct (Nat.eq_dec a x) as [<-|Hx]; [|rewrite live_set_other by auto; eauto]. rewrite Hb, Hb'. cbn [bind]. destruct (step_eqb_spec sl s) as [<-|Hd].
    + rewrite Es. intros H. injection H as <-. unfold b'. rewrite (slot_set _ _ _ _ Es). eauto.
    + unfold b'. rewrite slot_other by auto. eauto.
  - intros v1 s l1. unfold enter. destruct (v_hold v1) as [| |x|]; cbn [deref bind]; auto. destruct (Nat.eq_dec a x) as [<-|Hx]; [|rewrite live_set_other by auto; auto]. rewrite Hb, Hb'. cbn [bind]. unfold b'. destruct b as [| |vs|ms], sl as [n|kk], s as [n'|k']; cbn [set_slot] in *; try discriminate; auto.
    + now rewrite set_nth_length.
    + cbn [slot] in Es. destruct (bytes_eqb_spec k' kk) as [->|Ek].
      * rewrite assoc_set_same. now rewrite Es.
      * now rewrite assoc_set_other by congruence.
  - unfold load. cbn [fst snd]. rewrite Hb'. cbn [bind]. unfold b'. now rewrite (slot_set _ _ _ _ Es).
Qed.

(** ** A request refused *)
Lemma refuse_here n : refuse n n = false.
Proof. unfold refuse. now rewrite Nat.eqb_refl. Qed.
Lemma refuse_before n : refuse (S n) n = true.
Proof. unfold refuse. destruct (Nat.eqb_spec n (S n)); [lia|reflexivity]. Qed.
Lemma copy_refused n f h v t A : owns h v t A -> costs t = true -> copy_a (refuse n) (S f) h n v = Ret (h, S n, Failed).
Proof. intros Ho Hc. destruct Ho; try discriminate; cbn [copy_a v_kind]; rewrite refuse_here; reflexivity. Qed.
Lemma copy_refused_kind n f h v : cheap (v_kind v) = false -> copy_a (refuse n) (S f) h n v = Ret (h, S n, Failed).
Proof. intros Hc. destruct v as [[] p]; try discriminate; cbn [copy_a v_kind]; rewrite refuse_here; reflexivity. Qed.
Lemma copy_crash n f h v t A : owns h v t A -> flat t = false -> copy_a (refuse (S n)) (S f) h n v = UB NullDeref.
Proof.
  intros Ho Hc. destruct Ho as [| | | |a vs ts A Hcell Hl|a ms mt A Hcell H1 H2 Hl]; try discriminate; cbn [copy_a v_kind v_hold deref]; rewrite refuse_before; cbn [negb]; rewrite (cell_live _ _ _ Hcell); cbn [bind]; rewrite refuse_here; [|reflexivity].
  destruct ts; [discriminate|]. inversion Hl; subst. reflexivity.
Qed.
Lemma assign_refused n h l src v q h' : load h l = Ret v -> load h src = Ret q -> cheap (v_kind q) = false -> assign h l src = Ret h' ->
  exists h1, store h l (mkV (v_kind q) (v_hold v)) = Ret h1 /\ assign_a (refuse n) h n l src = Ret (h1, S n, true).
Proof.
  intros Hl Hq Hc H. unfold assign, assign_a in *. rewrite Hq, Hl in *. cbn [bind] in *. apply bind_ret in H as (h1 & E1 & H). apply bind_ret in H as (q1 & E2 & _). exists h1. split; auto. rewrite E1. cbn [bind]. rewrite E2. cbn [bind].
  unfold fuel_of. rewrite copy_refused_kind by exact Hc. reflexivity.
Qed.
Lemma assign_crash n h l src v q u A : load h l = Ret v -> load h src = Ret q -> owns h q u A -> v_kind v = v_kind q -> flat u = false -> assign_a (refuse (S n)) h n l src = UB NullDeref.
Proof.
  intros Hl Hq Ho Hk Hf. unfold assign_a. rewrite Hq, Hl. cbn [bind]. rewrite <- Hk, val_eta, (store_same _ _ _ Hl). cbn [bind]. rewrite Hq. cbn [bind]. rewrite Hk, val_eta. unfold fuel_of. now rewrite (copy_crash _ _ _ _ _ _ Ho Hf).
Qed.

(** what a refused request can do to an operation *)
Definition spoilt (s : state) (e : env) (c : nat) (o : op) : Prop :=
  exists alloc, (exists u, step_a alloc s c o = UB u) \/ exists s' c', step_a alloc s c o = Ret (s', c', true) /\ ~ shows e (content s').

Lemma costs_kind t : costs t = true -> cheap (kind_of t) = false.
Proof. rewrite cheap_costs. now intros ->. Qed.

(** overwriting the value at [l], a part of what is found at [p] *)
Lemma spoilt_assign al h e A p s0 t tc u l lq v vq Aq h' : invA al h e A -> eget e p = Found t -> tget s0 t = Found tc -> find_place (mkS al h) (fst p, snd p ++ s0) = Ret l -> load h l = Ret v -> v_kind v = kind_of tc ->
  load h lq = Ret vq -> owns h vq u Aq -> overwrites tc u = false -> assign h l lq = Ret h' -> forall c,
  exists alloc, assign_a alloc h c l lq = UB NullDeref \/ exists h1 c1, assign_a alloc h c l lq = Ret (h1, c1, true) /\ ~ shows e (content (mkS al h1)).
Proof.
  intros Hi Eg Et Hp Hl Kv Hq Ho Hw Ha c. pose proof (owns_kind _ _ _ _ Ho) as Kq. unfold overwrites in Hw. apply orb_false_iff in Hw as [Hc Hw]. apply negb_false_iff in Hc. destruct (kind_eqb_spec (kind_of tc) (kind_of u)) as [Hk|Hk].
  - cbn [andb] in Hw. exists (refuse (S c)). left. eapply assign_crash; eauto. congruence.
  - exists (refuse c). right. destruct (assign_refused c h l lq v vq h' Hl Hq) as (h1 & Es & Ea); auto. { rewrite Kq. now apply costs_kind. }
    exists h1, (S c). split; auto. intros Hs. destruct (keeps_store _ _ _ _ _ Hl Es) as [K Hl1].
    assert (Eg' : eget e (fst p, snd p ++ s0) = Found tc). { unfold eget in *. cbn [fst]. destruct (is_alive _ _); [|discriminate]. unfold full in *. cbn [fst snd]. change (At (fst p) :: snd p ++ s0) with ((At (fst p) :: snd p) ++ s0). now rewrite tget_app, Eg. }
    destruct (shown_part (mkS al h1) e _ _ _ Hs (proj1 Hi) Eg' (keeps_find _ _ _ _ _ K Hp)) as (f & w & Hw1 & Hr). cbn [s_mem] in *. rewrite Hl1 in Hw1. injection Hw1 as <-. apply read_kind in Hr. cbn [v_kind] in Hr. congruence.
Qed.

Lemma find_app al h p l s0 v l1 : find_place (mkS al h) p = Ret l -> load h l = Ret v -> enter h v s0 = Ret l1 -> find_place (mkS al h) (fst p, snd p ++ [s0]) = Ret l1.
Proof.
  unfold find_place. cbn [s_alive s_mem fst snd]. destruct (is_alive _ _); [|discriminate]. generalize (0, At (fst p)). induction (snd p) as [|s q IH]; intros l0 H Hl He; cbn [locate app] in *.
  - injection H as ->. rewrite Hl. cbn [bind]. now rewrite He.
  - apply bind_ret in H as (v0 & -> & H). cbn [bind]. apply bind_ret in H as (l2 & -> & H). cbn [bind]. auto.
Qed.

Theorem step_spoilt s e c o e' : inv s e -> astep e o = Some (e', None) -> tolerant e o = false -> (forall p k, o <> Erase p k) -> spoilt s e c o.
Proof.
  intros (A & Hi) Hst Ht Hne. destruct s as [al h]. cbn [s_alive s_mem] in Hi. assert (Hsim := step_sim (mkS al h) e o (ex_intro _ A Hi)). rewrite Hst in Hsim. cbn [sim] in Hsim. destruct Hsim as (s1 & E1 & _). unfold spoilt.
  destruct o; try discriminate; cbn [step_a step_op s_mem s_alive astep_of tolerant asks negb andb] in *.
  - (* New *)
    destruct c0; try discriminate. exists (refuse c). left. cbn [construct_a]. assert (E : refuse c (S c) = true) by (unfold refuse; destruct (Nat.eqb_spec (S c) c); [lia|reflexivity]). rewrite E, refuse_here. cbn [negb orb andb bind]. eauto.
  - (* Copy *)
    destruct (eget e p) as [t|y|] eqn:Eg; try discriminate. destruct (at_place _ _ _ _ _ _ Hi Eg) as (a & sl & b & v0 & A0 & Ar & Hp & _ & Hc & Hs & Hl & Ho & _). rewrite Hp. cbn [bind]. rewrite Hl. cbn [bind].
    exists (refuse (S c)). left. unfold copy_construct_a, fuel_of. rewrite (copy_crash _ _ _ _ _ _ Ho Ht). cbn [bind]. eauto.
  - (* Assign *)
    destruct (eget e q) as [u|y|] eqn:Eq; try discriminate. destruct (at_place _ _ _ _ _ _ Hi Eq) as (aq & sq & bq & vq & Aq & Aqr & Hq & Wq & Hcq & Hsq & Hlq & Hoq & _). rewrite Hq in *. cbn [bind] in *.
    destruct (eget e p) as [t|y|] eqn:Ep; try discriminate. destruct (at_place _ _ _ _ _ _ Hi Ep) as (a & sl & b & v0 & A0 & Ar & Hp & Wp & Hc & Hs & Hl & Ho & _). rewrite Hp in *. cbn [bind] in *. apply bind_ret in E1 as (h' & E1 & _).
    destruct (spoilt_assign al h e A p [] t t u (a, sl) (aq, sq) v0 vq Aq h' Hi Ep eq_refl) with (c := c) as (alloc & [G|(h1 & c1 & G & Hn)]); auto.
    + rewrite app_nil_r. destruct p. exact Hp.
    + eapply owns_kind; eauto.
    + exists alloc. left. rewrite G. cbn [bind]. eauto.
    + exists alloc. right. rewrite G. cbn [bind]. eauto.
  - (* Push *)
    destruct (eget e q) as [u|y|] eqn:Eq; try discriminate. destruct (at_place _ _ _ _ _ _ Hi Eq) as (aq & sq & bq & vq & Aq & Aqr & Hq & Wq & Hcq & Hsq & Hlq & Hoq & _). rewrite Hq in *. cbn [bind] in *.
    destruct (eget e p) as [t|y|] eqn:Ep; try discriminate. destruct (at_place _ _ _ _ _ _ Hi Ep) as (a & sl & b & v0 & A0 & Ar & Hp & Wp & Hc & Hs & Hl & Ho & _). rewrite Hp in *. cbn [bind] in *. rewrite Hl in *. cbn [bind] in *.
    destruct t as [| | | |l|]; try discriminate. inversion Ho as [| | | |a0 vs ? A1 Hc0 Hl0|]; subst. cbn [v_hold deref] in *. rewrite (cell_live _ _ _ Hc0) in *. cbn [bind fst] in *. destruct (aq =? a0) eqn:Ea; [discriminate|]. apply bind_ret in E1 as (h' & E1 & _).
    set (g := mkV KUndef HGarbage) in *. set (h1 := set_block h a0 (BArr (vs ++ [g]))) in *. assert (Hc1 : cell_at h1 a0 (BArr (vs ++ [g]))) by (eapply cell_set; eauto).
    assert (Hld : load h1 (aq, sq) = Ret vq). { apply load_ok with bq; auto. apply set_block_live; auto. now apply Nat.eqb_neq in Ea. }
    assert (Hlg : load h1 (a0, At (length vs)) = Ret g). { apply load_ok with (BArr (vs ++ [g])); auto. cbn [slot]. apply nth_mid. }
    destruct (assign_refused (S c) h1 (a0, At (length vs)) (aq, sq) g vq h' Hlg Hld) as (h2 & Es & Ea2); auto. { rewrite (owns_kind _ _ _ _ Hoq). apply costs_kind. apply negb_false_iff in Ht. exact Ht. }
    exists (refuse (S c)). right. rewrite refuse_before. cbn [negb]. rewrite Ea2. cbn [bind]. exists (mkS al h2), (S (S c)). split; [reflexivity|]. intros Hsh.
    assert (K1 : keeps h h1). { destruct (grow_live h a0 (BArr vs) (BArr (vs ++ [g])) Hc0) as [G1 G2]. - intros [n|k] w; cbn [slot]; [|discriminate]. intros Hn. rewrite nth_error_app1; auto. apply nth_error_Some. congruence. - rewrite app_length. cbn. lia. - split; [|exact G2]. intros l1 v1 H1. exists v1. split; [apply G1, H1|reflexivity]. }
    destruct (keeps_store _ _ _ _ _ Hlg Es) as [K2 Hl2]. pose proof (keeps_trans _ _ _ K1 K2) as K.
    destruct (shown_part (mkS al h2) e _ _ _ Hsh (proj1 Hi) Ep (keeps_find _ _ _ _ _ K Hp)) as (f & w & Hw1 & Hr). cbn [s_mem] in *.
    destruct (proj1 K _ _ Hl) as (v' & Hv' & Hh). rewrite Hw1 in Hv'. injection Hv' as <-. cbn [v_hold] in Hh. pose proof (read_kind _ _ _ _ Hr) as Kw. destruct f as [|f]; [discriminate|]. cbn [read] in Hr. rewrite <- Kw, Hh in Hr. cbn [kind_of deref] in Hr.
    assert (Hlive : exists vs', live h2 a0 = Ret (BArr vs') /\ length vs' = S (length vs)).
    { unfold store in Es. cbn [fst snd] in Es. rewrite (cell_live _ _ _ Hc1) in Es. cbn [bind slot] in Es. rewrite nth_mid in Es. injection Es as <-. eexists. split; [eapply live_set; apply (cell_live _ _ _ Hc1)|]. cbn [set_slot]. rewrite set_nth_length, app_length. cbn. lia. }
    destruct Hlive as (vs' & Ev & Hlen). rewrite Ev in Hr. cbn [bind] in Hr. apply bind_ret in Hr as (ts & Er & Hr). injection Hr as ->. apply read_list_length in Er. rewrite (owns_list_length _ _ _ _ Hl0) in Hlen. lia.
  - (* Pop *)
    destruct (eget e p) as [t|y|] eqn:Eg; try discriminate. destruct (at_place _ _ _ _ _ _ Hi Eg) as (a & sl & b & v0 & A0 & Ar & Hp & _ & Hc & Hs & Hl & Ho & Hcnt & Har & _ & _ & Hr). rewrite Hp in *. cbn [bind] in *. rewrite Hl in *. cbn [bind] in *.
    destruct t as [| | | |l|]; try discriminate. assert (Hn : forall y, cnt A0 y + cnt Ar y <= 1). { intros y. rewrite <- Hcnt. apply Hi. }
    inversion Ho as [| | | |a0 vs ? A1 Hc0 Hl0|]; subst. cbn [v_hold deref] in *. rewrite (cell_live _ _ _ Hc0) in *. cbn [bind] in *. destruct (rev vs) as [|w r] eqn:Er; [discriminate|].
    destruct (owns_last _ _ _ _ _ _ Hl0 Er) as (Aw & Hw). apply negb_false_iff in Ht. exists (refuse c). right. unfold copy_construct_a, fuel_of. rewrite copy_refused_kind by (rewrite (owns_kind _ _ _ _ Hw); now apply costs_kind). cbn [bind begin_a].
    eexists _, _. split; [reflexivity|]. intros Hsh.
    assert (E : vs = rev r ++ [w]) by (rewrite <- (rev_involutive vs), Er; reflexivity).
    destruct (owns_firstn _ _ _ _ (length (rev r)) Hl0) as (A2 & Hf & Hle). rewrite E, firstn_app, Nat.sub_diag, firstn_all in Hf at 1. cbn [firstn] in Hf. rewrite app_nil_r in Hf.
    destruct (array_set h a0 vs l A1 Ar _ _ _ Hc0 Hl0 Hn Hf Hle) as (G1 & G2 & G3). destruct (Hr _ _ _ G2 G1 G3) as (A' & Hi' & _).
    assert (Hlt : length (rev r) < length l). { rewrite <- (owns_list_length _ _ _ _ Hl0), E, app_length. cbn. lia. }
    assert (Ga : is_alive (e_alive e) (fst p) = true). { unfold eget in Eg. destruct (is_alive _ _); [reflexivity|discriminate]. }
    destruct (Hsh _ Ga) as (t1 & N1 & C1). set (e2 := eset e p _) in *.
    assert (Hinv : inv (mkS al (set_block h a0 (BArr (rev r)))) e2) by (exists A'; exact Hi'). destruct (env_alive _ e2 (fst p) Hinv Ga) as (t2 & N2 & C2). pose proof (content_ok _ _ _ _ Hinv C2) as C3. rewrite C1 in C3. injection C3 as <-.
    pose proof (eget_same e p _ (TArr (firstn (length (rev r)) l)) Eg) as Eg2. fold e2 in Eg2. apply eget_tget in Eg. apply eget_tget in Eg2. unfold full, whole in Eg, Eg2. cbn [tget child] in Eg, Eg2. rewrite N1 in Eg. rewrite N2 in Eg2. rewrite Eg in Eg2. injection Eg2 as Eg2.
    apply (f_equal (@length _)) in Eg2. rewrite firstn_length in Eg2. lia.
  - (* Put *)
    destruct (eget e q) as [u|y|] eqn:Eq; try discriminate. destruct (at_place _ _ _ _ _ _ Hi Eq) as (aq & sq & bq & vq & Aq & Aqr & Hq & Wq & Hcq & Hsq & Hlq & Hoq & _). rewrite Hq in *. cbn [bind] in *.
    destruct (eget e p) as [t|y|] eqn:Ep; try discriminate. destruct (at_place _ _ _ _ _ _ Hi Ep) as (a & sl & b & v0 & A0 & Ar & Hp & Wp & Hc & Hs & Hl & Ho & _). rewrite Hp in *. cbn [bind] in *. rewrite Hl in *. cbn [bind] in *.
    destruct t as [| | | | |mt]; try discriminate. inversion Ho as [| | | | |a0 ms ? A1 Hc0 Hf Hnd Hl0]; subst. cbn [v_hold deref] in *. rewrite (cell_live _ _ _ Hc0) in *. cbn [bind] in *.
    destruct (assoc k mt) as [tc|] eqn:Ek.
    + destruct (obj_split _ _ _ _ _ _ Hf Hl0 Ek) as (ms1 & vc & ms2 & mt1 & mt2 & B1 & Bc & B2 & Ems & _ & Hk1 & _ & _ & _ & _ & _ & Hvc & _).
      assert (Ea : assoc k ms = Some vc) by (rewrite Ems; now apply assoc_mid). rewrite Ea in *. rewrite (set_block_id _ _ _ Hc0) in E1. apply bind_ret in E1 as (h' & E1 & _).
      destruct (spoilt_assign al h e A p [Member k] (TObj mt) tc u (a0, Member k) (aq, sq) vc vq Aq h' Hi Ep) with (c := c) as (alloc & [G|(h1 & c1 & G & Hn)]); auto.
      * cbn [tget child]. now rewrite Ek.
      * eapply find_app; eauto. unfold enter. cbn [v_hold deref]. rewrite (cell_live _ _ _ Hc0). cbn [bind]. now rewrite Ea.
      * apply load_ok with (BObj ms); auto.
      * eapply owns_kind; eauto.
      * exists alloc. left. rewrite G. cbn [bind]. eauto.
      * exists alloc. right. rewrite G. cbn [bind]. eauto.
    + apply assoc_none in Ek. rewrite <- Hf in Ek. apply assoc_none in Ek. rewrite Ek. exists (refuse c). left. rewrite refuse_here. cbn [negb orb]. eauto.
  - (* Erase *) exfalso. eapply Hne. reflexivity.
Qed.
