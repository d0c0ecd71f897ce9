(** While std::bad_alloc passes, what is destroyed can be destroyed. *)
From Verif Require Import Base JsonModel JsonSpec ValueSpec ValueModel ValueFaultModel JsonHeapSpec JsonHeapModel JsonOomSpec JsonOomModel ValueProof ValueProof2 ValueProof3 ValueProof4 ValueProof5 ValueProof6 ValueProof7 ValueProof8 JsonHeapProof2 JsonHeapProof3 JsonHeapProof4 JsonHeapProof5 JsonOomProof JsonOomProof2 JsonOomProof3.
From Coq Require Import List NArith ZArith Bool Lia Arith.
Import ListNotations.

(** ** Slots of variables *)
Definition c0 (h : heap) (vs : list val) : Prop := nth_error h 0 = Some (Auto (BArr vs)).
Definition keep (x : nat) (h h' : heap) : Prop := forall vs, c0 h vs -> exists vs', c0 h' vs' /\ nth_error vs' x = nth_error vs x.
Lemma keep_refl x h : keep x h h.
Proof. intros vs H. eauto. Qed.
Lemma keep_trans x h h1 h2 : keep x h h1 -> keep x h1 h2 -> keep x h h2.
Proof. intros H1 H2 vs H. destruct (H1 _ H) as (v1 & A1 & B1). destruct (H2 _ A1) as (v2 & A2 & B2). exists v2. split; auto. congruence. Qed.
Lemma keep_app x h e : keep x h (h ++ e).
Proof. intros vs H. exists vs. split; auto. unfold c0 in *. rewrite nth_error_app1; auto. apply nth_error_Some. congruence. Qed.
Lemma keep_set x h a b : a <> 0 -> keep x h (set_block h a b).
Proof. intros Ha vs H. exists vs. split; auto. unfold c0. rewrite set_block_other; auto. Qed.
Lemma keep_dead x h a : a <> 0 -> keep x h (set_nth a Dead h).
Proof. intros Ha vs H. exists vs. split; auto. unfold c0. rewrite set_nth_other; auto. Qed.
Lemma keep_store x h l v h' : store h l v = Ret h' -> l <> (0, At x) -> keep x h h'.
Proof.
  intros E Hl vs H. destruct l as [a sl]. destruct (Nat.eq_dec a 0) as [->|Ha].
  - unfold store, live in E. cbn [fst snd] in E. unfold c0 in H. rewrite H in E. cbn [bind] in E. destruct sl as [y|k]; cbn [slot] in E; [|discriminate]. destruct (nth_error vs y) eqn:Ey; [|discriminate]. injection E as <-.
    exists (set_nth y v vs). split; [|apply set_nth_other; congruence]. unfold c0, set_block. rewrite H. cbn [set_slot]. apply set_nth_same. apply nth_error_Some. congruence.
  - unfold store in E. apply bind_ret in E as (b & _ & E). destruct (slot b _); [|discriminate]. injection E as <-. apply keep_set; auto.
Qed.
Lemma keep_begin x al h y v s : begin_var al h y v = Ret s -> y <> x -> keep x h (s_mem s).
Proof. unfold begin_var. destruct (nth_error al y) as [[]|]; try discriminate. intros E Hy. apply bind_ret in E as (h1 & E & E2). injection E2 as <-. eapply keep_store; eauto. congruence. Qed.
Lemma keep_destroy x f h v h' : destroy f h v = Ret h' -> keep x h h'.
Proof. intros E vs H. exists vs. split; auto. eapply auto_destroy'; eauto. Qed.
Lemma keep_assign x h l src h' : assign h l src = Ret h' -> l <> (0, At x) -> keep x h h'.
Proof.
  unfold assign. intros E Hl. apply bind_ret in E as (q & _ & E). apply bind_ret in E as (v & _ & E). apply bind_ret in E as (h1 & E1 & E). apply bind_ret in E as (q1 & _ & E). apply bind_ret in E as ([h2 o] & E2 & E).
  eapply keep_trans; [eapply keep_store; eauto|]. eapply keep_trans; [|eapply keep_store; eauto]. apply copy_grows in E2 as (e & ->). apply keep_app.
Qed.
Lemma keep_copy x h v h' w : copy_construct h v = Ret (h', w) -> keep x h h'.
Proof. unfold copy_construct. intros E. apply bind_ret in E as ([h1 o] & E & E2). injection E2 as <- <-. apply copy_grows in E as (e & ->). apply keep_app. Qed.

Definition kept (x : nat) (s : state) : Prop := load (s_mem s) (0, At x) = Ret (mkV KUndef HNull).
Lemma kept_keep x s s' e : inv s e -> keep x (s_mem s) (s_mem s') -> kept x s -> kept x s'.
Proof.
  intros Hi Hk H. destruct (cell0 _ _ Hi) as (vs & E0). destruct (Hk _ E0) as (vs' & E0' & En). unfold kept in *. rewrite (load0 _ _ _ E0) in H. rewrite (load0 _ _ _ E0'), En. exact H.
Qed.

(** operations that only make, move and destroy variables other than [v_args] and [v_root] *)
Definition free (x : nat) : Prop := x <> v_args /\ x <> v_root.
Definition basic (o : op) : Prop :=
  match o with
  | New x _ | Copy x (_, []) | Destroy x => free x
  | Move x (y, []) => free x /\ free y
  | _ => False
  end.
Lemma sim_ret s e o s' e' : inv s e -> step_op s o = Ret s' -> astep e o = Some (e', None) -> inv s' e'.
Proof. intros Hi E Ha. pose proof (step_sim s e o Hi) as H. rewrite Ha in H. destruct H as (s2 & E2 & Hi2). congruence. Qed.
Lemma basic_inv s e o s' : inv s e -> basic o -> step_op s o = Ret s' -> exists e', inv s' e'.
Proof.
  intros Hi Hb E. pose proof Hi as (A & Hal & Hlen & _).
  assert (HF : forall y l, find_place s (y, []) = Ret l -> exists t, eget e (y, []) = Found t).
  { intros y l El. unfold find_place in El. cbn [fst] in El. destruct (is_alive (s_alive s) y) eqn:Ea; [|discriminate]. rewrite Hal in Ea. destruct (env_alive _ _ _ Hi Ea) as (t & _ & G). eauto. }
  assert (HB : forall h x v, begin_var (s_alive s) h x v = Ret s' -> is_fresh e x = true).
  { intros h x v Eb. unfold begin_var in Eb. unfold is_fresh. rewrite Hal in Eb. destruct (nth_error (e_alive e) x) as [[]|]; try discriminate. reflexivity. }
  enough (exists e', astep e o = Some (e', None)) as (e' & Ha) by (exists e'; eapply sim_ret; eauto).
  destruct o as [x c|x [y p]|x [y p]|p q|x|p z|p t|p q|x p|p n|p|p k q|p k|p a]; try contradiction; cbn [astep_of]; cbn [step_op] in E; cbn iota beta in E.
  - destruct (construct (s_mem s) c) as [h v]. rewrite (HB _ _ _ E). eauto.
  - destruct p; [|contradiction]. apply bind_ret in E as (l & El & E). apply bind_ret in E as (v & _ & E). apply bind_ret in E as ([h' w] & _ & E). destruct (HF _ _ El) as (t & ->). rewrite (HB _ _ _ E). eauto.
  - destruct p; [|contradiction]. apply bind_ret in E as (l & El & E). apply bind_ret in E as (v & _ & E). apply bind_ret in E as (h' & _ & E). destruct (HF _ _ El) as (t & ->). rewrite (HB _ _ _ E). eauto.
  - apply bind_ret in E as (l & El & E). unfold find_place in El. cbn [fst] in El. rewrite <- Hal. destruct (is_alive (s_alive s) x); [eauto|discriminate].
Qed.
Lemma basic_keep s o s' x : x = v_args \/ x = v_root -> basic o -> step_op s o = Ret s' -> keep x (s_mem s) (s_mem s').
Proof.
  intros Hx Hb E. assert (HN : forall y, free y -> y <> x) by (intros y [H1 H2]; destruct Hx; congruence).
  destruct o as [y c|y [z p]|y [z p]|p q|y|p z|p t|p q|y p|p n|p|p k q|p k|p a]; try contradiction; cbn [step_op basic] in *; cbn iota beta in E.
  - destruct (construct (s_mem s) c) as [h v] eqn:Ec. eapply keep_trans; [|eapply keep_begin; eauto]. destruct c; cbn [construct] in Ec; injection Ec as <- <-; try apply keep_refl; apply keep_app.
  - destruct p; [|contradiction]. apply bind_ret in E as (l & El & E). apply bind_ret in E as (v & _ & E). apply bind_ret in E as ([h' w] & E1 & E). eapply keep_trans; [eapply keep_copy; eauto|eapply keep_begin; eauto].
  - destruct p; [|contradiction]. destruct Hb as [Hb1 Hb2]. apply bind_ret in E as (l & El & E). apply bind_ret in E as (v & _ & E). apply bind_ret in E as (h' & E1 & E). apply place_var in El as ->. eapply keep_trans; [eapply keep_store; eauto|eapply keep_begin; eauto]. pose proof (HN _ Hb2). congruence.
  - apply bind_ret in E as (l & El & E). apply bind_ret in E as (v & _ & E). apply bind_ret in E as (h' & E1 & E). apply bind_ret in E as (h'' & E2 & E). injection E as <-. cbn [s_mem]. apply place_var in El as ->. eapply keep_trans; [eapply keep_destroy; eauto|eapply keep_store; eauto]. pose proof (HN _ Hb). congruence.
Qed.

Definition J (rt : Prop) (s : state) : Prop := (exists e, inv s e) /\ kept v_args s /\ (rt -> kept v_root s).
Lemma J_basic rt s o s' : J rt s -> basic o -> step_op s o = Ret s' -> J rt s'.
Proof.
  intros ((e & Hi) & Ha & Hr) Hb E. split; [eapply basic_inv; eauto|]. split; [eapply kept_keep; eauto; eapply basic_keep; eauto|]. intros H. eapply kept_keep; eauto. eapply basic_keep; eauto.
Qed.
Lemma J_weak (rt rt' : Prop) s : (rt' -> rt) -> J rt s -> J rt' s.
Proof. intros H (H1 & H2 & H3). split; auto. Qed.
Lemma J_mem n b s f L s' (rt rt' : Prop) : J rt s -> mem n b s' f L -> keep v_args (s_mem s) (s_mem s') -> (rt' -> rt /\ keep v_root (s_mem s) (s_mem s')) -> J rt' s'.
Proof.
  intros ((e & Hi) & Ha & Hr) (e' & Hi' & _) Hk Hk2. split; [eauto|]. split; [exact (kept_keep _ s s' e Hi Hk Ha)|]. intros H. destruct (Hk2 H) as [H1 H2]. exact (kept_keep _ s s' e Hi H2 (Hr H1)).
Qed.

(** the variables that are alive are among those that an exception destroys *)
Definition cov (c : hstate) : Prop := forall x, is_alive (s_alive (h_mem c)) x = true -> In x (passed c).
Lemma cov_same c s : cov c -> s_alive s = s_alive (h_mem c) -> cov (with_mem c s).
Proof. intros H E x Hx. cbn [with_mem h_mem] in Hx. rewrite E in Hx. exact (H x Hx). Qed.
Definition made (o : op) : option nat := match o with New x _ | Copy x _ | Move x _ => Some x | _ => None end.
Lemma alive_set l x y b : is_alive (set_nth x b l) y = true -> (y = x /\ b = true) \/ is_alive l y = true.
Proof.
  intros H. destruct (Nat.eq_dec x y) as [<-|Hn]; [|right; rewrite alive_other in H; auto]. left. split; auto. pose proof (alive_lt _ _ H) as Hl. rewrite set_nth_length in Hl. rewrite alive_same in H by auto. exact H.
Qed.
Lemma begin_alive al h x v s : begin_var al h x v = Ret s -> s_alive s = set_nth x true al.
Proof. unfold begin_var. destruct (nth_error al x) as [[]|]; try discriminate. intros E. apply bind_ret in E as (h1 & _ & E). now injection E as <-. Qed.
Lemma step_alive s o s' y : basic o -> step_op s o = Ret s' -> is_alive (s_alive s') y = true -> is_alive (s_alive s) y = true \/ made o = Some y.
Proof.
  intros Hb E Hy. destruct o as [x c|x [z p]|x [z p]|p q|x|p z|p t|p q|x p|p n|p|p k q|p k|p a]; try contradiction; cbn [step_op made] in *; cbn iota beta in E.
  - destruct (construct (s_mem s) c) as [h v]. rewrite (begin_alive _ _ _ _ _ E) in Hy. destruct (alive_set _ _ _ _ Hy) as [[-> _]|]; auto.
  - apply bind_ret in E as (l & El & E). apply bind_ret in E as (v & _ & E). apply bind_ret in E as ([h' w] & _ & E). rewrite (begin_alive _ _ _ _ _ E) in Hy. destruct (alive_set _ _ _ _ Hy) as [[-> _]|]; auto.
  - apply bind_ret in E as (l & El & E). apply bind_ret in E as (v & _ & E). apply bind_ret in E as (h' & _ & E). rewrite (begin_alive _ _ _ _ _ E) in Hy. destruct (alive_set _ _ _ _ Hy) as [[-> _]|]; auto.
  - apply bind_ret in E as (l & El & E). apply bind_ret in E as (v & _ & E). apply bind_ret in E as (h' & _ & E). apply bind_ret in E as (h'' & _ & E). injection E as <-. cbn [s_alive] in Hy. destruct (alive_set _ _ _ _ Hy) as [[_ H]|]; [discriminate|auto].
Qed.
Lemma cov_basic c o s' : cov c -> basic o -> (forall x, made o = Some x -> In x (passed c)) -> step_op (h_mem c) o = Ret s' -> cov (with_mem c s').
Proof. intros Hc Hb Hm E x Hx. cbn [with_mem h_mem] in Hx. destruct (step_alive _ _ _ _ Hb E Hx) as [H|H]; [exact (Hc x H)|exact (Hm x H)]. Qed.

(** ** What a failed operation leaves can be destroyed *)
Definition Bad (c : hstate) : Prop := (exists s e, inv s e /\ srel s (h_mem c)) /\ cov c.
Lemma bad_here rt c : J rt (h_mem c) -> cov c -> Bad c.
Proof. intros ((e & Hi) & _) Hc. split; auto. exists (h_mem c), e. split; auto. eapply srel_refl; eauto. Qed.
Lemma bad_longer rt c s' : J rt (h_mem c) -> cov c -> longer (h_mem c) s' -> Bad (with_mem c s').
Proof.
  intros ((e & Hi) & _) Hc (ex & ->). split; [|now apply cov_same]. exists (h_mem c), e. split; auto. cbn [with_mem h_mem]. apply srel_app. eapply srel_refl; eauto.
Qed.
(** one slot of one cell *)
Lemma srel_cell s e a b b' h1 ex : inv s e -> nth_error (s_mem s) a = Some (Heap b) -> a <> 0 -> brel b b' -> h1 = set_block (s_mem s) a b' -> srel s (mkS (s_alive s) (h1 ++ ex)).
Proof.
  intros Hi Ea Hn Hb ->. destruct (cell0 _ _ Hi) as (vs & E0). apply (srel_app s (mkS (s_alive s) (set_block (s_mem s) a b'))). split; [reflexivity|]. cbn [s_mem]. split.
  - split; [now rewrite set_block_length|]. intros x cx Ex. destruct (Nat.eq_dec a x) as [<-|Hx].
    + unfold set_block. rewrite Ea in *. injection Ex as <-. eexists. split; [apply set_nth_same; apply nth_error_Some; congruence|exact Hb].
    + rewrite set_block_other by auto. exists cx. auto using crel_refl.
  - exists vs, vs. rewrite set_block_other by auto. auto using vrels_refl.
Qed.
Lemma srel_slot0 s e x v ex vs h1 : inv s e -> nth_error (s_mem s) 0 = Some (Auto (BArr vs)) -> (forall w, nth_error vs x = Some w -> vrel w v) -> store (s_mem s) (0, At x) v = Ret h1 -> srel s (mkS (s_alive s) (h1 ++ ex)).
Proof.
  intros Hi E0 Hv Es. assert (Hx : x < length vs). { unfold store, live in Es. cbn [fst snd] in Es. rewrite E0 in Es. cbn [bind slot] in Es. destruct (nth_error vs x) eqn:En; [|discriminate]. apply nth_error_Some. congruence. }
  rewrite (store0 _ _ _ _ E0 Hx) in Es. injection Es as Es. assert (P0 : 0 < length (s_mem s)) by (apply nth_error_Some; congruence).
  assert (h1 = set_nth 0 (Auto (BArr (set_nth x v vs))) (s_mem s)) as -> by (symmetry; exact Es). clear Es.
  apply (srel_app s (mkS (s_alive s) (set_nth 0 (Auto (BArr (set_nth x v vs))) (s_mem s)))). split; [reflexivity|]. cbn [s_mem]. split.
  - split; [now rewrite set_nth_length|]. intros y cy Ey. destruct (Nat.eq_dec 0 y) as [<-|Hy].
    + rewrite E0 in Ey. injection Ey as <-. eexists. split; [now apply set_nth_same|exact I].
    + rewrite set_nth_other by auto. exists cy. auto using crel_refl.
  - exists vs, (set_nth x v vs). split; auto. split; [now apply set_nth_same|]. clear - Hv. revert x Hv. induction vs as [|w vs IH]; intros [|x] Hv; cbn [set_nth]; constructor; auto using vrel_refl, vrels_refl. 
Qed.
