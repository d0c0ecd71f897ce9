(** Operations on whole variables: what each variable holds, and the storage in use. *)
From Verif Require Import Base ValueSpec ValueModel ValueProof ValueProof2 ValueProof3 ValueProof4 ValueProof5 ValueProof6 ValueProof7.
From Coq Require Import List NArith ZArith Bool Lia Arith.
Import ListNotations.

(** ** The variables *)
Definition vars : Type := nat -> option tree.
Definition upd (f : vars) (x : nat) (v : option tree) : vars := fun y => if (y =? x)%nat then v else f y.
Lemma upd_same f x v : upd f x v x = v.
Proof. unfold upd. now rewrite Nat.eqb_refl. Qed.
Lemma upd_other f x v y : y <> x -> upd f x v y = f y.
Proof. unfold upd. intros H. destruct (Nat.eqb_spec y x); [lia|reflexivity]. Qed.

Definition look (e : env) (x : nat) : option tree := if is_alive (e_alive e) x then nth_error (e_vars e) x else None.
Definition view (e : env) (n : nat) (f : vars) : Prop := length (e_alive e) = n /\ length (e_vars e) = n /\ forall x, look e x = f x.

Lemma alive_lt l x : is_alive l x = true -> x < length l.
Proof. intros H. destruct (lt_dec x (length l)); auto. unfold is_alive in H. rewrite nth_overflow in H by lia. discriminate. Qed.
Lemma alive_same l x b : x < length l -> is_alive (set_nth x b l) x = b.
Proof. intros H. unfold is_alive. apply nth_error_nth. now apply set_nth_same. Qed.

Lemma view_lt e n f x t : view e n f -> f x = Some t -> x < n.
Proof. intros (<- & _ & H) E. rewrite <- H in E. unfold look in E. destruct (is_alive (e_alive e) x) eqn:Ea; [|discriminate]. now apply alive_lt. Qed.
Lemma view_get e n f x t : view e n f -> f x = Some t -> is_alive (e_alive e) x = true /\ eget e (x, []) = Found t.
Proof.
  intros (_ & _ & H) E. rewrite <- H in E. unfold look in E. destruct (is_alive (e_alive e) x) eqn:Ea; [|discriminate]. split; auto.
  unfold eget, full, whole. cbn [fst snd tget child]. now rewrite Ea, E.
Qed.
Lemma view_fresh e n f x : view e n f -> x < n -> f x = None -> is_fresh e x = true.
Proof.
  intros (L1 & L2 & H) Hx E. rewrite <- H in E. unfold look, is_alive in E. unfold is_fresh.
  destruct (nth_error (e_alive e) x) as [b|] eqn:En; [|apply nth_error_None in En; lia]. rewrite (nth_error_nth _ _ false En) in E. destruct b; auto. apply nth_error_None in E. lia.
Qed.
Lemma view_begin e n f x t : view e n f -> x < n -> view (evar e x true t) n (upd f x (Some t)).
Proof.
  intros (L1 & L2 & H) Hx. unfold evar. split; [cbn; now rewrite set_nth_length|]. split; [cbn; now rewrite set_nth_length|]. intros y. unfold look. cbn [e_alive e_vars].
  unfold upd. destruct (Nat.eqb_spec y x) as [->|Hn].
  - rewrite alive_same by lia. apply set_nth_same. lia.
  - rewrite alive_other, set_nth_other by lia. apply H.
Qed.
Lemma view_end e n f x t : view e n f -> x < n -> view (evar e x false t) n (upd f x None).
Proof.
  intros (L1 & L2 & H) Hx. unfold evar. split; [cbn; now rewrite set_nth_length|]. split; [cbn; now rewrite set_nth_length|]. intros y. unfold look. cbn [e_alive e_vars].
  unfold upd. destruct (Nat.eqb_spec y x) as [->|Hn].
  - rewrite alive_same by lia. reflexivity.
  - rewrite alive_other, set_nth_other by lia. apply H.
Qed.
Lemma view_set e n f x t u : view e n f -> f x = Some t -> view (eset e (x, []) u) n (upd f x (Some u)).
Proof.
  intros Hv E. pose proof (view_lt _ _ _ _ _ Hv E) as Hx. destruct (view_get _ _ _ _ _ Hv E) as [Ea _]. destruct Hv as (L1 & L2 & H).
  assert (Ev : e_vars (eset e (x, []) u) = set_nth x u (e_vars e)). { unfold eset, full, whole. cbn [fst snd tset child e_vars]. destruct (nth_error (e_vars e) x) eqn:En; [reflexivity|apply nth_error_None in En; lia]. }
  split; [exact L1|]. split; [now rewrite Ev, set_nth_length|]. intros y. unfold look. rewrite Ev. cbn [eset e_alive]. unfold upd. destruct (Nat.eqb_spec y x) as [->|Hn].
  - rewrite Ea. apply set_nth_same. lia.
  - rewrite set_nth_other by lia. apply H.
Qed.

(** ** The storage *)
Definition weight (v : option tree) : nat := match v with Some t => blocks t | None => 0 end.
Definition total (n : nat) (f : vars) : nat := list_sum (map (fun x => weight (f x)) (seq 0 n)).
Lemma total_ext n f g : (forall x, x < n -> f x = g x) -> total n f = total n g.
Proof. intros H. unfold total. f_equal. apply map_ext_in. intros x Hx. apply in_seq in Hx. rewrite H by lia. reflexivity. Qed.
Lemma total_S n f : total (S n) f = total n f + weight (f n).
Proof. unfold total. rewrite seq_S, map_app, list_sum_app. cbn. lia. Qed.
Lemma total_upd n f x v : x < n -> total n (upd f x v) + weight (f x) = total n f + weight v.
Proof.
  induction n as [|n IH]; intros Hx; [lia|]. rewrite !total_S. destruct (Nat.eq_dec x n) as [->|Hn].
  - rewrite upd_same. rewrite (total_ext n (upd f n v) f); [lia|]. intros y Hy. apply upd_other. lia.
  - rewrite upd_other by lia. specialize (IH ltac:(lia)). lia.
Qed.

(** the variables, and the storage: what the variables need, [b] of others, and [L] that nothing refers to *)
Definition mem (n b : nat) (s : state) (f : vars) (L : nat) : Prop :=
  exists e, inv s e /\ view e n f /\ in_use (s_mem s) = b + total n f + L.
Lemma mem_ext n b s f g L : (forall x, f x = g x) -> mem n b s f L -> mem n b s g L.
Proof. intros H (e & Hi & (L1 & L2 & Hv) & Hc). exists e. split; auto. split. { split; auto. split; auto. intros x. rewrite <- H. auto. } rewrite Hc. f_equal. f_equal. apply total_ext. auto. Qed.
Lemma mem_lt n b s f L x t : mem n b s f L -> f x = Some t -> x < n.
Proof. intros (e & _ & Hv & _). eapply view_lt; eauto. Qed.
Lemma mem_content n b s f L x t : mem n b s f L -> f x = Some t -> content s x = Ret t.
Proof. intros (e & Hi & Hv & _) E. destruct (view_get _ _ _ _ _ Hv E) as [_ G]. eapply content_ok; eauto. Qed.
Lemma mem_kind n b s f L x t : mem n b s f L -> f x = Some t -> exists v, load (s_mem s) (0, At x) = Ret v /\ v_kind v = kind_of t.
Proof.
  intros (e & Hi & Hv & _) E. destruct (view_get _ _ _ _ _ Hv E) as [_ G]. destruct s as [al h], Hi as (A & Hi). cbn [s_alive s_mem] in *.
  destruct (at_place _ _ _ _ _ _ Hi G) as (a & sl & bb & v0 & A0 & Ar & Hp & _ & Hc & Hs & Hl & Ho & _). unfold find_place in Hp. cbn [fst snd locate s_alive s_mem] in Hp. destruct (is_alive al x); [|discriminate]. injection Hp as <- <-.
  exists v0. split; auto. eapply owns_kind; eauto.
Qed.

Lemma begin_use al h x v s : begin_var al h x v = Ret s -> in_use (s_mem s) = in_use h.
Proof.
  unfold begin_var. destruct (nth_error al x) as [[]|]; try discriminate. intros E. apply bind_ret in E as (h1 & E & E2). injection E2 as <-. cbn [s_mem].
  unfold store in E. apply bind_ret in E as (b & _ & E). destruct (slot b _); [|discriminate]. injection E as <-. apply in_use_set.
Qed.
Lemma store_use h l v h' : store h l v = Ret h' -> in_use h' = in_use h.
Proof. unfold store. intros E. apply bind_ret in E as (b & _ & E). destruct (slot b _); [|discriminate]. injection E as <-. apply in_use_set. Qed.

Lemma m_new n b s f L x c : mem n b s f L -> x < n -> f x = None -> exists s', step_op s (New x c) = Ret s' /\ mem n b s' (upd f x (Some (tree_of c))) L.
Proof.
  intros (e & Hi & Hv & Hc) Hx E. pose proof (step_sim s e (New x c) Hi) as H. cbn [astep_of] in H. rewrite (view_fresh _ _ _ _ Hv Hx E) in H. destruct H as (s' & Es & Hi').
  exists s'. split; auto. eexists. split; [exact Hi'|]. split; [now apply view_begin|]. pose proof (total_upd n f x (Some (tree_of c)) Hx) as T. rewrite E in T. cbn [weight] in T.
  assert (in_use (s_mem s') = in_use (s_mem s) + blocks (tree_of c)); [|lia].
  cbn [step_op] in Es. destruct c; cbn [construct tree_of blocks map list_sum fold_right] in *; rewrite (begin_use _ _ _ _ _ Es), ?in_use_app; cbn; lia.
Qed.
Lemma m_copy n b s f L x y t : mem n b s f L -> f y = Some t -> x < n -> f x = None -> exists s', step_op s (Copy x (y, [])) = Ret s' /\ mem n b s' (upd f x (Some t)) L.
Proof.
  intros (e & Hi & Hv & Hc) Ey Hx E. pose proof (step_sim s e (Copy x (y, [])) Hi) as H. cbn [astep_of] in H. destruct (view_get _ _ _ _ _ Hv Ey) as [_ G]. rewrite G, (view_fresh _ _ _ _ Hv Hx E) in H. destruct H as (s' & Es & Hi').
  exists s'. split; auto. eexists. split; [exact Hi'|]. split; [now apply view_begin|]. pose proof (total_upd n f x (Some t) Hx) as T. rewrite E in T. cbn [weight] in T. rewrite (step_copy_count _ _ _ _ _ _ Hi G Es). lia.
Qed.
Lemma m_move n b s f L x y t : mem n b s f L -> f y = Some t -> x < n -> f x = None -> exists s', step_op s (Move x (y, [])) = Ret s' /\ mem n b s' (upd (upd f y (Some TUndef)) x (Some t)) L.
Proof.
  intros (e & Hi & Hv & Hc) Ey Hx E. assert (Hxy : x <> y) by congruence. pose proof (step_sim s e (Move x (y, [])) Hi) as H. cbn [astep_of] in H. destruct (view_get _ _ _ _ _ Hv Ey) as [_ G]. rewrite G, (view_fresh _ _ _ _ Hv Hx E) in H. destruct H as (s' & Es & Hi').
  exists s'. split; auto. eexists. split; [exact Hi'|]. split; [apply view_begin; auto; eapply view_set; eauto|].
  pose proof (total_upd n f y (Some TUndef) (view_lt _ _ _ _ _ Hv Ey)) as T1. pose proof (total_upd n (upd f y (Some TUndef)) x (Some t) Hx) as T2. rewrite upd_other, E in T2 by auto. rewrite Ey in T1. cbn [weight blocks] in T1, T2.
  assert (in_use (s_mem s') = in_use (s_mem s)); [|lia].
  cbn [step_op] in Es. apply bind_ret in Es as (l & _ & Es). apply bind_ret in Es as (v & _ & Es). apply bind_ret in Es as (h1 & E1 & Es). rewrite (begin_use _ _ _ _ _ Es). eapply store_use; eauto.
Qed.
Lemma m_destroy n b s f L x t : mem n b s f L -> f x = Some t -> exists s', step_op s (Destroy x) = Ret s' /\ mem n b s' (upd f x None) (L + (blocks t - freed t)).
Proof.
  intros (e & Hi & Hv & Hc) E. pose proof (step_sim s e (Destroy x) Hi) as H. cbn [astep_of] in H. destruct (view_get _ _ _ _ _ Hv E) as [Ea G]. rewrite Ea in H. destruct H as (s' & Es & Hi').
  pose proof (view_lt _ _ _ _ _ Hv E) as Hx. exists s'. split; auto. eexists. split; [exact Hi'|]. split; [now apply view_end|]. pose proof (total_upd n f x None Hx) as T. rewrite E in T. cbn [weight] in T.
  pose proof (step_destroy_count _ _ _ _ _ Hi G Es). destruct (freed_blocks t) as [Hle _]. lia.
Qed.

(** the target of an assignment lies outside its source *)
Lemma assign_use h l src vq tq Aq h' : load h src = Ret vq -> owns h vq tq Aq -> cnt Aq (fst l) = 0 -> src <> l -> assign h l src = Ret h' -> in_use h' = in_use h + blocks tq.
Proof.
  intros Hq Ho Hz Hne E. unfold assign in E. rewrite Hq in E. cbn [bind] in E. apply bind_ret in E as (v & Ev & E). apply bind_ret in E as (h1 & E1 & E). apply bind_ret in E as (q1 & Eq1 & E). apply bind_ret in E as ([h2 o] & E2 & E).
  pose proof (store_use _ _ _ _ E1) as U1. pose proof (store_use _ _ _ _ E) as U2.
  unfold store in E1. apply bind_ret in E1 as (bl & El & E1). destruct (slot bl (snd l)) as [w|] eqn:Es; [|discriminate]. injection E1 as E1.
  assert (Ho1 : owns h1 vq tq Aq). { rewrite <- E1. apply (frame h); auto. intros x Hx. apply set_block_other. intros <-. apply cnt_in in Hx. lia. }
  assert (Hq1 : q1 = vq).
  { enough (G : load h1 src = Ret vq) by congruence. rewrite <- E1. destruct l as [a sl], src as [aq sq]. unfold load in *. cbn [fst snd] in *. destruct (Nat.eq_dec a aq) as [<-|Hd].
    - rewrite El in Hq. cbn [bind] in Hq. unfold live, set_block in *. destruct (nth_error h a) as [[b0|b0|]|] eqn:En; try discriminate; injection El as ->;
        (rewrite set_nth_same by (apply nth_error_Some; congruence)); cbn [bind]; rewrite slot_other by congruence; exact Hq.
    - replace (live (set_block h a (set_slot bl sl {| v_kind := v_kind vq; v_hold := v_hold v |})) aq) with (live h aq); auto. unfold live. now rewrite set_block_other. }
  subst q1. rewrite val_eta in E2. destruct (copy_count _ _ _ _ _ _ _ Ho1 E2) as (ex & -> & C). rewrite in_use_app in U2. lia.
Qed.
Lemma place_var s x l : find_place s (x, []) = Ret l -> l = (0, At x).
Proof. unfold find_place. cbn [fst snd locate]. destruct (is_alive _ _); congruence. Qed.
(** what two variables own *)
Lemma two_vars al h e A x y t u : invA al h e A -> x <> y -> eget e (x, []) = Found t -> eget e (y, []) = Found u ->
  exists vx Ax vy Ay, load h (0, At x) = Ret vx /\ load h (0, At y) = Ret vy /\ owns h vx t Ax /\ owns h vy u Ay /\ cnt Ax 0 = 0 /\ cnt Ay 0 = 0 /\ (forall z, cnt Ax z + cnt Ay z <= 1).
Proof.
  intros Hi Hne Gx Gy. destruct (at_place _ _ _ _ _ _ Hi Gx) as (a & sl & b & v0 & A0 & Ar & Hp & _ & Hc & Hs & Hl & Ho & _ & _ & Hz & _).
  destruct (at_place _ _ _ _ _ _ Hi Gy) as (a' & sl' & b' & v0' & A0' & Ar' & Hp' & _ & Hc' & Hs' & Hl' & Ho' & _ & _ & Hz' & _).
  apply place_var in Hp. apply place_var in Hp'. injection Hp as -> ->. injection Hp' as -> ->. exists v0, A0, v0', A0'. repeat (split; [assumption|]). intros z.
  assert (b' = b) as ->. { unfold cell_at in *. rewrite Hc in Hc'. destruct (0 =? 0); congruence. }
  destruct Hi as (_ & _ & Hw & Hn). pose proof (owns_two h root _ A (At x) (At y) 0 b v0 t A0 v0' u A0' Hw ltac:(congruence) eq_refl Hc Hs Ho Hs' Ho' (or_introl eq_refl) z). specialize (Hn z). lia.
Qed.
Lemma m_assign n b s f L x y t u : mem n b s f L -> x <> y -> f x = Some t -> f y = Some u -> exists s', step_op s (Assign (x, []) (y, [])) = Ret s' /\ mem n b s' (upd f x (Some u)) (L + blocks t).
Proof.
  intros (e & Hi & Hv & Hc) Hne Ex Ey. pose proof (step_sim s e (Assign (x, []) (y, [])) Hi) as H. cbn [astep_of] in H. destruct (view_get _ _ _ _ _ Hv Ex) as [_ Gx]. destruct (view_get _ _ _ _ _ Hv Ey) as [_ Gy]. rewrite Gx, Gy in H.
  cbn [negb full fst snd prefix step_eqb] in H. rewrite (proj2 (Nat.eqb_neq y x)) in H by auto. cbn [andb] in H. destruct H as (s' & Es & Hi').
  exists s'. split; auto. eexists. split; [exact Hi'|]. split; [eapply view_set; eauto|]. pose proof (total_upd n f x (Some u) (view_lt _ _ _ _ _ Hv Ex)) as T. rewrite Ex in T. cbn [weight] in T.
  assert (in_use (s_mem s') = in_use (s_mem s) + blocks u); [|lia].
  destruct s as [al h], Hi as (A & Hi). cbn [s_alive s_mem] in *. destruct (two_vars _ _ _ _ _ _ _ _ Hi Hne Gx Gy) as (vx & Ax & vy & Ay & Lx & Ly & Ox & Oy & _ & Zy & _).
  cbn [step_op s_mem s_alive] in Es. apply bind_ret in Es as (lq & Eq & Es). apply bind_ret in Es as (l & El & Es). apply place_var in Eq. apply place_var in El. subst. apply bind_ret in Es as (h' & Es & E2). injection E2 as <-. cbn [s_mem].
  eapply assign_use; [exact Ly|exact Oy| | |exact Es]; [exact Zy|congruence].
Qed.
Lemma load_other h a bl y : a <> 0 -> load (set_block h a bl) (0, At y) = load h (0, At y).
Proof. intros Ha. unfold load, live. cbn [fst]. now rewrite set_block_other. Qed.
Lemma grown_use h a bl l vq tq Aq h' y : load h (0, At y) = Ret vq -> owns h vq tq Aq -> cnt Aq a = 0 -> a <> 0 -> assign (set_block h a bl) (a, l) (0, At y) = Ret h' -> in_use h' = in_use h + blocks tq.
Proof.
  intros Hq Ho Hz Ha E. rewrite <- (in_use_set h a bl). eapply assign_use; [| | | |exact E].
  - rewrite load_other by auto. exact Hq.
  - apply (frame h); eauto. intros z Hz'. apply set_block_other. intros <-. apply cnt_in in Hz'. lia.
  - exact Hz.
  - congruence.
Qed.
Lemma m_push n b s f L x y l u : mem n b s f L -> x <> y -> f x = Some (TArr l) -> f y = Some u -> exists s', step_op s (Push (x, []) (y, [])) = Ret s' /\ mem n b s' (upd f x (Some (TArr (l ++ [u])))) L.
Proof.
  intros (e & Hi & Hv & Hc) Hne Ex Ey. pose proof (step_sim s e (Push (x, []) (y, [])) Hi) as H. cbn [astep_of] in H. destruct (view_get _ _ _ _ _ Hv Ex) as [_ Gx]. destruct (view_get _ _ _ _ _ Hv Ey) as [_ Gy]. rewrite Gx, Gy in H.
  cbn [negb full fst snd prefix step_eqb] in H. rewrite (proj2 (Nat.eqb_neq y x)), (proj2 (Nat.eqb_neq x y)) in H by auto. cbn [andb orb] in H. destruct H as (s' & Es & Hi').
  exists s'. split; auto. eexists. split; [exact Hi'|]. split; [eapply view_set; eauto|]. pose proof (total_upd n f x (Some (TArr (l ++ [u]))) (view_lt _ _ _ _ _ Hv Ex)) as T. rewrite Ex in T. cbn [weight blocks] in T. rewrite map_app, list_sum_app in T. cbn [map list_sum fold_right] in T.
  assert (in_use (s_mem s') = in_use (s_mem s) + blocks u); [|unfold total in *; lia].
  destruct s as [al h], Hi as (A & Hi). cbn [s_alive s_mem] in *. destruct (two_vars _ _ _ _ _ _ _ _ Hi Hne Gx Gy) as (vx & Ax & vy & Ay & Lx & Ly & Ox & Oy & Zx & _ & Hd).
  cbn [step_op s_mem s_alive] in Es. apply bind_ret in Es as (lq & Eq & Es). apply bind_ret in Es as (l0 & El & Es). apply place_var in Eq. apply place_var in El. subst. rewrite Lx in Es. cbn [bind] in Es.
  inversion Ox as [| | | |a0 vs ? A1 Hc0 Hvs|]; subst. cbn [v_hold deref] in Es. rewrite (cell_live _ _ _ Hc0) in Es. cbn [bind fst] in Es. destruct (Nat.eqb_spec 0 a0) as [|Hz]; [discriminate|]. apply bind_ret in Es as (h' & Es & E2). injection E2 as <-. cbn [s_mem].
  refine (grown_use _ _ _ _ _ _ _ _ _ Ly Oy _ _ Es); [|lia]. specialize (Hd a0). rewrite (cnt_cons a0), cnt_one in Hd. lia.
Qed.
Lemma m_put n b s f L x y k ms u : mem n b s f L -> x <> y -> f x = Some (TObj ms) -> f y = Some u ->
  exists s', step_op s (Put (x, []) k (y, [])) = Ret s' /\ mem n b s' (upd f x (Some (TObj (assoc_set k u ms)))) (L + weight (assoc k ms)).
Proof.
  intros (e & Hi & Hv & Hc) Hne Ex Ey. pose proof (step_sim s e (Put (x, []) k (y, [])) Hi) as H. cbn [astep_of] in H. destruct (view_get _ _ _ _ _ Hv Ex) as [_ Gx]. destruct (view_get _ _ _ _ _ Hv Ey) as [_ Gy]. rewrite Gx, Gy in H.
  cbn [negb full fst snd prefix step_eqb] in H. rewrite (proj2 (Nat.eqb_neq y x)) in H by auto. cbn [andb orb] in H. destruct H as (s' & Es & Hi').
  exists s'. split; auto. eexists. split; [exact Hi'|]. split; [eapply view_set; eauto|]. pose proof (total_upd n f x (Some (TObj (assoc_set k u ms))) (view_lt _ _ _ _ _ Hv Ex)) as T. rewrite Ex in T. cbn [weight blocks] in T.
  assert (S : list_sum (map (fun m => blocks (snd m)) (assoc_set k u ms)) + weight (assoc k ms) = list_sum (map (fun m => blocks (snd m)) ms) + blocks u).
  { clear. induction ms as [|[j w] ms IH]; cbn [assoc assoc_set map list_sum fold_right snd weight]; [lia|]. destruct (bytes_eqb j k); cbn [map list_sum fold_right snd weight]; unfold list_sum in *; lia. }
  assert (in_use (s_mem s') = in_use (s_mem s) + blocks u); [|unfold total in *; lia].
  destruct s as [al h], Hi as (A & Hi). cbn [s_alive s_mem] in *. destruct (two_vars _ _ _ _ _ _ _ _ Hi Hne Gx Gy) as (vx & Ax & vy & Ay & Lx & Ly & Ox & Oy & Zx & _ & Hd).
  cbn [step_op s_mem s_alive] in Es. apply bind_ret in Es as (lq & Eq & Es). apply bind_ret in Es as (l0 & El & Es). apply place_var in Eq. apply place_var in El. subst. rewrite Lx in Es. cbn [bind] in Es.
  inversion Ox as [| | | | |a0 ms0 ? A1 Hc0 Hf Hnd Hms]; subst. cbn [v_hold deref] in Es. rewrite (cell_live _ _ _ Hc0) in Es. cbn [bind fst] in Es. apply bind_ret in Es as (h' & Es & E2). injection E2 as <-. cbn [s_mem].
  refine (grown_use _ _ _ _ _ _ _ _ _ Ly Oy _ _ Es).
  - specialize (Hd a0). rewrite (cnt_cons a0), cnt_one in Hd. lia.
  - intros ->. rewrite (cnt_cons 0), cnt_one in Zx. lia.
Qed.

(** ** Objects of the program stay *)
Definition is_auto (h : heap) (a : nat) : Prop := exists b, nth_error h a = Some (Auto b).
Lemma auto_app h e a : is_auto h a -> is_auto (h ++ e) a.
Proof. intros (b & E). exists b. rewrite nth_error_app1; auto. apply nth_error_Some. congruence. Qed.
Lemma auto_set h a' bl a : is_auto h a -> is_auto (set_block h a' bl) a.
Proof.
  intros (b & E). destruct (Nat.eq_dec a' a) as [->|Hn]; [|exists b; now rewrite set_block_other]. unfold set_block. rewrite E. exists bl. apply set_nth_same. apply nth_error_Some. congruence.
Qed.
Lemma auto_store h l v h' a : store h l v = Ret h' -> is_auto h a -> is_auto h' a.
Proof. unfold store. intros E. apply bind_ret in E as (b & _ & E). destruct (slot b _); [|discriminate]. injection E as <-. apply auto_set. Qed.
Lemma auto_begin al h x v s a : begin_var al h x v = Ret s -> is_auto h a -> is_auto (s_mem s) a.
Proof. unfold begin_var. destruct (nth_error al x) as [[]|]; try discriminate. intros E. apply bind_ret in E as (h1 & E & E2). injection E2 as <-. eapply auto_store; eauto. Qed.
Lemma copy_grows fuel : forall h v h' o, copy fuel h v = Ret (h', o) -> exists e, h' = h ++ e.
Proof.
  induction fuel as [|f IH]; intros h v h' o E; [discriminate|].
  assert (HL : forall vs h0 h' vs', copy_list (copy f) h0 vs = Ret (h', vs') -> exists e, h' = h0 ++ e).
  { induction vs as [|v1 vs IHl]; intros h0 h1 vs' El; cbn [copy_list] in El. { injection El as <- <-. exists []. now rewrite app_nil_r. }
    apply bind_ret in El as ([h2 o2] & E1 & El). apply bind_ret in El as ([h3 o3] & E2 & El). injection El as <- <-. apply IH in E1 as (e1 & ->). apply IHl in E2 as (e2 & ->). exists (e1 ++ e2). now rewrite app_assoc. }
  cbn [copy] in E. destruct (v_kind v).
  - injection E as <- <-. exists []. now rewrite app_nil_r.
  - destruct (v_hold v); try discriminate. injection E as <- <-. exists []. now rewrite app_nil_r.
  - apply bind_ret in E as ([a b] & _ & E). destruct b; try discriminate. injection E as <- <-. eauto.
  - apply bind_ret in E as ([a b] & _ & E). destruct b; try discriminate. injection E as <- <-. eauto.
  - apply bind_ret in E as ([a b] & _ & E). destruct b; try discriminate. apply bind_ret in E as ([h1 vs'] & E1 & E). injection E as <- <-. apply HL in E1 as (e & ->). rewrite <- app_assoc. eauto.
  - apply bind_ret in E as ([a b] & _ & E). destruct b; try discriminate. apply bind_ret in E as ([h1 vs'] & E1 & E). injection E as <- <-. apply HL in E1 as (e & ->). rewrite <- app_assoc. eauto.
Qed.
Lemma auto_release h a' h' a : release h a' = Ret h' -> is_auto h a -> is_auto h' a.
Proof.
  unfold release. intros E (b & Ea). destruct (nth_error h a') as [[b0|b0|]|] eqn:En; try discriminate. injection E as <-. exists b. rewrite set_nth_other; auto. intros ->. congruence.
Qed.
Lemma auto_destroy fuel : forall h v h' a, destroy fuel h v = Ret h' -> is_auto h a -> is_auto h' a.
Proof.
  induction fuel as [|f IH]; intros h v h' a E Ha; [discriminate|].
  assert (HL : forall vs h0 h', destroy_list (destroy f) h0 vs = Ret h' -> is_auto h0 a -> is_auto h' a).
  { induction vs as [|v1 vs IHl]; intros h0 h1 El H0; cbn [destroy_list] in El. { injection El as <-. auto. } apply bind_ret in El as (h2 & E1 & El). eapply IHl; eauto. }
  cbn [destroy] in E.
  assert (HS : forall p k, (ab <- deref h p ;; (let (a0, b0) := ab in k a0 b0)) = Ret h' -> (forall a0 b0, k a0 b0 = Ret h' -> is_auto h' a) -> is_auto h' a).
  { intros p k Ek Hk. apply bind_ret in Ek as ([a0 b0] & _ & Ek). eauto. }
  assert (HA : forall a0 b0, match b0 with BStr _ => release h a0 | _ => UB TypeConfusion end = Ret h' -> is_auto h' a) by (intros a0 []; try discriminate; intros; eapply auto_release; eauto).
  assert (HB : forall a0 b0, match b0 with BArr _ => release h a0 | _ => UB TypeConfusion end = Ret h' -> is_auto h' a) by (intros a0 []; try discriminate; intros; eapply auto_release; eauto).
  assert (HC : forall a0 b0, match b0 with BObj ms => h1 <- destroy_list (destroy f) h (map snd ms) ;; release h1 a0 | _ => UB TypeConfusion end = Ret h' -> is_auto h' a).
  { intros a0 []; try discriminate. intros Ek. apply bind_ret in Ek as (h1 & E1 & Ek). eapply auto_release; eauto. }
  destruct (v_kind v); try (injection E as <-; exact Ha); destruct (v_hold v) as [|bb|a1|]; try (injection E as <-; exact Ha); try discriminate; cbn [deref] in E; apply bind_ret in E as ([a0 b0] & _ & E); eauto.
Qed.
Lemma auto_assign h l src h' a : assign h l src = Ret h' -> is_auto h a -> is_auto h' a.
Proof.
  unfold assign. intros E Ha. apply bind_ret in E as (q & _ & E). apply bind_ret in E as (v & _ & E). apply bind_ret in E as (h1 & E1 & E). apply bind_ret in E as (q1 & _ & E). apply bind_ret in E as ([h2 o] & E2 & E).
  eapply auto_store; [exact E|]. apply copy_grows in E2 as (e & ->). apply auto_app. eapply auto_store; eauto.
Qed.
Lemma auto_copy h v h' w a : copy_construct h v = Ret (h', w) -> is_auto h a -> is_auto h' a.
Proof. unfold copy_construct. intros E Ha. apply bind_ret in E as ([h1 o] & E & E2). injection E2 as <- <-. apply copy_grows in E as (e & ->). now apply auto_app. Qed.
Lemma step_auto s o s' a : step_op s o = Ret s' -> is_auto (s_mem s) a -> is_auto (s_mem s') a.
Proof.
  intros E Ha. destruct o; cbn [step_op] in E; cbn iota beta in E.
  - destruct (construct (s_mem s) c) as [h' v] eqn:Ec. eapply auto_begin; eauto. destruct c; cbn [construct] in Ec; injection Ec as <- <-; auto using auto_app.
  - apply bind_ret in E as (l & _ & E). apply bind_ret in E as (v & _ & E). apply bind_ret in E as ([h' w] & E1 & E). eapply auto_begin; eauto. eapply auto_copy; eauto.
  - apply bind_ret in E as (l & _ & E). apply bind_ret in E as (v & _ & E). apply bind_ret in E as (h' & E1 & E). eapply auto_begin; eauto. eapply auto_store; eauto.
  - apply bind_ret in E as (src & _ & E). apply bind_ret in E as (l & _ & E). apply bind_ret in E as (h' & E1 & E). injection E as <-. eapply auto_assign; eauto.
  - apply bind_ret in E as (l & _ & E). apply bind_ret in E as (v & _ & E). apply bind_ret in E as (h' & E1 & E). apply bind_ret in E as (h2 & E2 & E). injection E as <-. eapply auto_store; eauto. eapply auto_destroy; eauto.
  - apply bind_ret in E as (l & _ & E). apply bind_ret in E as (v & _ & E). apply bind_ret in E as ([a0 b] & _ & E). destruct b; try discriminate. injection E as <-. now apply auto_set.
  - apply bind_ret in E as (l & _ & E). apply bind_ret in E as (v & _ & E). apply bind_ret in E as ([a0 b] & _ & E). destruct b; try discriminate. injection E as <-. now apply auto_set.
  - apply bind_ret in E as (src & _ & E). apply bind_ret in E as (l & _ & E). apply bind_ret in E as (v & _ & E). apply bind_ret in E as ([a0 b] & _ & E). destruct b; try discriminate. destruct (fst src =? a0); [discriminate|].
    apply bind_ret in E as (h' & E1 & E). injection E as <-. eapply auto_assign; eauto. now apply auto_set.
  - apply bind_ret in E as (l & _ & E). apply bind_ret in E as (v & _ & E). apply bind_ret in E as ([a0 b] & _ & E). destruct b; try discriminate. destruct (rev vs); [discriminate|].
    apply bind_ret in E as ([h' w] & E1 & E). eapply auto_begin; eauto. eapply auto_copy; eauto. now apply auto_set.
  - apply bind_ret in E as (l & _ & E). apply bind_ret in E as (v & _ & E). apply bind_ret in E as ([a0 b] & _ & E). destruct b; try discriminate. injection E as <-. now apply auto_set.
  - apply bind_ret in E as (l & _ & E). apply bind_ret in E as (v & _ & E). apply bind_ret in E as ([a0 b] & _ & E). destruct b; try discriminate. injection E as <-. now apply auto_set.
  - apply bind_ret in E as (src & _ & E). apply bind_ret in E as (l & _ & E). apply bind_ret in E as (v & _ & E). apply bind_ret in E as ([a0 b] & _ & E). destruct b; try discriminate.
    apply bind_ret in E as (h' & E1 & E). injection E as <-. eapply auto_assign; eauto. now apply auto_set.
  - apply bind_ret in E as (l & _ & E). apply bind_ret in E as (v & _ & E). apply bind_ret in E as ([a0 b] & _ & E). destruct b; try discriminate. destruct (assoc k ms); [|injection E as <-; auto].
    apply bind_ret in E as (h' & E1 & E). injection E as <-. apply auto_set. eapply auto_destroy; eauto.
  - apply bind_ret in E as (l & _ & E). apply bind_ret in E as (v & _ & E). destruct (v_kind v); try discriminate. apply bind_ret in E as (b & _ & E). apply bind_ret in E as (h' & E1 & E). injection E as <-. eapply auto_store; eauto.
Qed.

(** ** A lent integer *)
Lemma owns_cells h :
  (forall v t A, owns h v t A -> forall a, In a A -> exists b, cell_at h a b) /\
  (forall vs ts A, owns_list h vs ts A -> forall a, In a A -> exists b, cell_at h a b).
Proof.
  apply owns_ind2; cbn [In]; intros.
  - tauto.
  - tauto.
  - destruct H0 as [<-|[]]. eauto.
  - destruct H0 as [<-|[]]. eauto.
  - destruct H2 as [<-|]; eauto.
  - destruct H4 as [<-|]; eauto.
  - tauto.
  - apply in_app_or in H3 as []; auto.
Qed.
Lemma m_lend n b s f L x z : mem n b s f L -> x < n -> f x = None ->
  exists h w s1, copy_construct (s_mem s ++ [Auto (BInt z)]) (mkV KInt (HPtr (length (s_mem s)))) = Ret (h, w) /\ begin_var (s_alive s) h x w = Ret s1 /\
    mem n b s1 (upd f x (Some (TInt z))) L /\ is_auto (s_mem s1) (length (s_mem s)) /\ 0 < length (s_mem s).
Proof.
  intros (e & (A & Hi) & Hv & Hc) Hx E. destruct s as [al h]. cbn [s_alive s_mem] in *. pose proof (inv_pos _ _ _ _ Hi) as Hpos.
  set (h1 := h ++ [Auto (BInt z)]). set (h2 := h1 ++ [Heap (BInt z)]). assert (L1 : length h1 = S (length h)) by (unfold h1; rewrite app_length; cbn; lia).
  assert (Ec : copy_construct h1 (mkV KInt (HPtr (length h))) = Ret (h2, mkV KInt (HPtr (length h1)))).
  { unfold copy_construct, fuel_of. cbn [copy v_kind v_hold deref]. unfold live. replace (nth_error h1 (length h)) with (Some (Auto (BInt z))) by (symmetry; apply nth_mid). reflexivity. }
  assert (Hi2 : invA al h2 e A). { unfold h2, h1. now apply inv_grow, inv_grow. }
  destruct (begin_ok al h2 e A x (mkV KInt (HPtr (length h1))) (TInt z) [length h1] Hi2 (view_fresh _ _ _ _ Hv Hx E)) as (s1 & E1 & Hi1).
  - apply O_int. unfold cell_at. destruct (Nat.eqb_spec (length h1) 0); [lia|]. apply nth_mid.
  - intros y. destruct (Nat.eq_dec (length h1) y) as [<-|Hn].
    + rewrite cnt_one. destruct (cnt A (length h1)) eqn:En; [lia|]. pose proof (inv_lt _ _ _ _ (length h1) Hi ltac:(lia)). lia.
    + rewrite cnt_other by auto. destruct Hi as (_ & _ & _ & Hn'). apply Hn'.
  - exists h2, (mkV KInt (HPtr (length h1))), s1. split; auto. split; auto. split.
    + eexists. split; [exact Hi1|]. split; [now apply view_begin|]. rewrite (begin_use _ _ _ _ _ E1). unfold h2, h1. rewrite !in_use_app. pose proof (total_upd n f x (Some (TInt z)) Hx) as T. rewrite E in T. cbn [weight blocks] in T. cbn. lia.
    + split; auto. eapply auto_begin; eauto. unfold h2. apply auto_app. exists (BInt z). apply nth_mid.
Qed.
Lemma m_unlend n b s f L a : mem n b s f L -> a <> 0 -> is_auto (s_mem s) a -> mem n b (mkS (s_alive s) (set_nth a Dead (s_mem s))) f L.
Proof.
  intros (e & (A & Hi) & Hv & Hc) Ha (bl & Eb). destruct s as [al h]. cbn [s_alive s_mem] in *. exists e. split; [|split; auto].
  - exists A. cbn [s_alive s_mem]. destruct Hi as (H1 & H2 & H3 & H4). split; auto. split; auto. split; auto. apply (frame h); auto. intros y Hy. apply set_nth_other. intros <-. pose proof (proj1 (owns_cells h) _ _ _ H3 _ Hy) as (b' & Hb).
    unfold cell_at in Hb. destruct (Nat.eqb_spec a 0); congruence.
  - cbn [s_mem]. rewrite <- Hc. apply nth_error_split in Eb as (h1 & h2 & -> & <-). rewrite set_nth_split. change (Dead :: h2) with ([Dead] ++ h2). change (Auto bl :: h2) with ([Auto bl] ++ h2). rewrite !in_use_app. reflexivity.
Qed.
