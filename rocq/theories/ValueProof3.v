(** Every operation keeps values apart. *)
From Verif Require Import Base ValueSpec ValueModel ValueProof ValueProof2.
From Coq Require Import List NArith ZArith Bool Lia Arith.
Import ListNotations.

(** ** Paths *)
Lemma tget_app p r t : tget (p ++ r) t = match tget p t with Found c => tget r c | x => x end.
Proof. revert t. induction p as [|s p IH]; intros t; cbn [app tget]; auto. destruct (child s t); auto. Qed.
Lemma child_same s c d t : child s t = Found d -> child s (set_child s c t) = Found c.
Proof.
  destruct s as [n|k], t as [| | | |l|ms]; cbn [child set_child]; intros H; try discriminate.
  - destruct (nth_error l n) eqn:E; [|discriminate]. rewrite set_nth_same; auto. apply nth_error_Some. congruence.
  - destruct (assoc k ms) eqn:E; [|discriminate]. apply assoc_split in E as (m1 & m2 & -> & Hk). rewrite assoc_set_mid by auto. now rewrite assoc_mid.
Qed.
Lemma assoc_set_other {A} k j (v : A) ms : k <> j -> assoc j (assoc_set k v ms) = assoc j ms.
Proof.
  intros H. induction ms as [|[i w] ms IH]; cbn [assoc_set assoc].
  - destruct (bytes_eqb_spec k j); congruence.
  - destruct (bytes_eqb_spec i k) as [->|Hi]; cbn [assoc]; [destruct (bytes_eqb_spec k j); congruence|]. now rewrite IH.
Qed.
Lemma child_other s s' c t : s <> s' -> child s' (set_child s c t) = child s' t.
Proof.
  intros H. destruct s as [n|k], s' as [m|j], t as [| | | |l|ms]; cbn [child set_child]; auto.
  - rewrite set_nth_other by congruence. reflexivity.
  - rewrite assoc_set_other by congruence. reflexivity.
Qed.
Lemma slot_other b s s' w : s <> s' -> slot (set_slot b s w) s' = slot b s'.
Proof.
  intros H. destruct b as [| |vs|ms], s as [n|k], s' as [m|j]; cbn [slot set_slot]; auto.
  - apply set_nth_other. congruence.
  - apply assoc_set_other. congruence.
Qed.
Lemma set_child_twice s c d x t : child s t = Found x -> set_child s d (set_child s c t) = set_child s d t.
Proof.
  destruct s as [n|k], t as [| | | |l|ms]; cbn [child set_child]; intros H; try discriminate.
  - destruct (nth_error l n) eqn:E; [|discriminate]. apply nth_error_split in E as (l1 & l2 & -> & <-). now rewrite !set_nth_split.
  - destruct (assoc k ms) eqn:E; [|discriminate]. apply assoc_split in E as (m1 & m2 & -> & Hk). now rewrite !assoc_set_mid.
Qed.
Lemma tget_same p : forall t c u, tget p t = Found c -> tget p (tset p u t) = Found u.
Proof.
  induction p as [|s p IH]; intros t c u H; cbn [tget tset] in *; auto. destruct (child s t) as [d| |] eqn:E; try discriminate. rewrite (child_same s _ d t E). eauto.
Qed.
Lemma tget_div p : forall q t c u, tget p t = Found c -> prefix p q = false -> prefix q p = false -> tget q (tset p u t) = tget q t.
Proof.
  induction p as [|s p IH]; intros q t c u H P1 P2; cbn [prefix] in P1; [discriminate|]. destruct q as [|s' q]; cbn [prefix] in P2; [discriminate|].
  cbn [tget tset] in *. destruct (child s t) as [d| |] eqn:E; try discriminate. destruct (step_eqb_spec s s') as [<-|Hn].
  - rewrite (child_same s _ d t E), E. cbn [andb] in *. destruct (step_eqb_spec s s); [|congruence]. eapply IH; eauto.
  - rewrite child_other by auto. reflexivity.
Qed.
Lemma tset_app p : forall r t c u, tget p t = Found c -> tset (p ++ r) u t = tset p (tset r u c) t.
Proof.
  induction p as [|s p IH]; intros r t c u H; cbn [app tget tset] in *; [congruence|]. destruct (child s t) as [d| |] eqn:E; try discriminate. erewrite IH; eauto.
Qed.
Lemma tset_twice p : forall t c u w, tget p t = Found c -> tset p w (tset p u t) = tset p w t.
Proof.
  induction p as [|s p IH]; intros t c u w H; cbn [tget tset] in *; auto. destruct (child s t) as [d| |] eqn:E; try discriminate. rewrite (child_same s _ d t E), (set_child_twice s _ _ d t E). erewrite IH; eauto.
Qed.
Lemma prefix_split p q : prefix p q = true -> exists r, q = p ++ r.
Proof.
  revert q. induction p as [|s p IH]; intros q H; [exists q; auto|]. destruct q as [|s' q]; [discriminate|]. cbn [prefix] in H. apply andb_prop in H as [H1 H2]. destruct (step_eqb_spec s s'); [|discriminate]. subst s'.
  destruct (IH _ H2) as (r & ->). exists r. reflexivity.
Qed.
Lemma prefix_snoc q p s : prefix q (p ++ [s]) = true -> prefix q p = true \/ q = p ++ [s].
Proof.
  revert p. induction q as [|s' q IH]; intros p H; [auto|]. destruct p as [|s1 p]; cbn [app prefix] in *.
  - apply andb_prop in H as [H1 H2]. destruct (step_eqb_spec s' s); [|discriminate]. subst s'. destruct q; [auto|discriminate].
  - apply andb_prop in H as [H1 H2]. destruct (step_eqb_spec s' s1); [|discriminate]. subst s'. destruct (IH _ H2) as [->| ->]; auto.
Qed.
Lemma prefix_app p r : prefix p (p ++ r) = true.
Proof. induction p as [|s p IH]; cbn [app prefix]; auto. rewrite IH. destruct (step_eqb_spec s s); [reflexivity|congruence]. Qed.

(** ** Walking *)
Lemma walk_app h v s p l s' r : walk h v s p = Ret l -> walk h v s (p ++ s' :: r) = (w <- load h l ;; walk h w s' r).
Proof.
  unfold walk. intros H. destruct (enter h v s) as [l0| | | |]; try discriminate. cbn [bind] in *. revert l0 H. induction p as [|s1 p IH]; intros l0 H; cbn [locate app] in *.
  - injection H as ->. reflexivity.
  - destruct (load h l0) as [w| | | |]; try discriminate. cbn [bind] in *. destruct (enter h w s1) as [l1| | | |]; try discriminate. cbn [bind] in *. auto.
Qed.

Lemma enter_missing h v t A s x : owns h v t A -> child s t = Missing x -> enter h v s = Throw x.
Proof.
  intros H Hc. destruct s as [n|k], t as [| | | |l|ms]; cbn [child] in Hc; try discriminate.
  - destruct (nth_error l n) eqn:E; [discriminate|]. injection Hc as <-. inversion H as [| | | |a vs ? A0 Hcell Hl|]; subst. unfold enter. cbn [v_hold deref]. rewrite (cell_live _ _ _ Hcell). cbn [bind].
    apply nth_error_None in E. rewrite <- (owns_list_length _ _ _ _ Hl) in E. destruct (Nat.ltb_spec n (length vs)); [lia|reflexivity].
  - destruct (assoc k ms) eqn:E; [discriminate|]. injection Hc as <-. inversion H as [| | | | |a ms' ? A0 Hcell Hf Hnd Hl]; subst. unfold enter. cbn [v_hold deref]. rewrite (cell_live _ _ _ Hcell). cbn [bind].
    apply assoc_none in E. rewrite <- Hf in E. apply assoc_none in E. now rewrite E.
Qed.
Lemma walk_missing p : forall s h v t A x, owns h v t A -> tget (s :: p) t = Missing x -> walk h v s p = Throw x.
Proof.
  induction p as [|s' p IH]; intros s h v t A x H Hg; cbn [tget] in Hg; destruct (child s t) as [tc|y|] eqn:Ec; try discriminate.
  - injection Hg as <-. unfold walk. now rewrite (enter_missing _ _ _ _ _ _ H Ec).
  - destruct (owns_child _ _ _ _ _ _ H Ec) as (a1 & b1 & vc & A1 & Ac & A2 & Hp & Hc & Hs & Ho & -> & He & _). unfold walk. rewrite He. cbn [bind locate]. rewrite (load_ok _ _ _ _ _ Hc Hs). cbn [bind].
    exact (IH s' h vc tc Ac x Ho Hg).
  - injection Hg as <-. unfold walk. now rewrite (enter_missing _ _ _ _ _ _ H Ec).
Qed.

(** adding slots does not disturb references *)
Lemma locate_ext h h1 : (forall l v, load h l = Ret v -> load h1 l = Ret v) -> (forall v s l, enter h v s = Ret l -> enter h1 v s = Ret l) ->
  forall p l l', locate h l p = Ret l' -> locate h1 l p = Ret l'.
Proof.
  intros H1 H2. induction p as [|s p IH]; intros l l' H; cbn [locate] in *; auto. apply bind_ret in H as (v & E1 & H). apply bind_ret in H as (l1 & E2 & H). rewrite (H1 _ _ E1). cbn [bind]. rewrite (H2 _ _ _ E2). cbn [bind]. auto.
Qed.

(** ** Assignment *)
Lemma set_block_id h a b : cell_at h a b -> set_block h a b = h.
Proof. unfold cell_at, set_block. intros H. rewrite H. destruct (a =? 0) eqn:E; apply set_nth_id; exact H. Qed.
Lemma val_eta v : mkV (v_kind v) (v_hold v) = v.
Proof. destruct v; reflexivity. Qed.

Lemma assign_ok p s h v t A t0 l lq vq tq Aq : 0 < length h -> owns h v t A -> (forall x, cnt A x <= 1) -> tget (s :: p) t = Found t0 -> walk h v s p = Ret l ->
  load h lq = Ret vq -> owns h vq tq Aq -> (forall x, cnt Aq x <= 1) -> cnt Aq (fst l) = 0 \/ kind_of t0 = kind_of tq ->
  exists h' A', assign h l lq = Ret h' /\ owns h' v (tset (s :: p) tq t) A' /\ (forall x, cnt A' x <= 1) /\ length h <= length h'.
Proof.
  intros Hh Ho Hn Hg Hw Hlq Hoq Hnq Hcond. destruct (focus p s h v t A t0 Ho Hn Hg) as (a & sl & b & v0 & A0 & Ar & Hw' & Hc & Hs & Ho0 & Hcnt & Har & Hr). rewrite Hw in Hw'. injection Hw' as ->. cbn [fst] in Hcond.
  unfold assign. rewrite Hlq. cbn [bind]. rewrite (load_ok _ _ _ _ _ Hc Hs). cbn [bind]. rewrite (store_ok _ _ _ _ _ _ Hc Hs). cbn [bind]. set (v1 := mkV (v_kind vq) (v_hold v0)). set (h1 := set_block h a (set_slot b sl v1)).
  assert (Hq1 : owns h1 vq tq Aq /\ load h1 lq = Ret vq).
  { destruct Hcond as [Hz|Hk].
    - split. { apply (frame h); auto. intros x Hx. apply set_block_other. intros <-. apply cnt_in in Hx. lia. }
      destruct lq as [aq sq]. unfold load in *. cbn [fst snd] in *. destruct (Nat.eq_dec a aq) as [<-|Hne].
      + rewrite (cell_live h1 a (set_slot b sl v1)) by (eapply cell_set; eauto). cbn [bind]. rewrite (cell_live _ _ _ Hc) in Hlq. cbn [bind] in Hlq. destruct (step_eqb_spec sl sq) as [<-|Hd].
        * rewrite (slot_set _ _ _ _ Hs). rewrite Hs in Hlq. injection Hlq as ->. unfold v1. now rewrite val_eta.
        * rewrite slot_other by auto. exact Hlq.
      + replace (live h1 aq) with (live h aq); auto. unfold live, h1. now rewrite set_block_other.
    - assert (E : v1 = v0). { unfold v1. rewrite (owns_kind _ _ _ _ Hoq), <- Hk, <- (owns_kind _ _ _ _ Ho0). apply val_eta. }
      assert (E1 : h1 = h). { unfold h1. rewrite E, (set_slot_id _ _ _ Hs). now apply set_block_id. } rewrite E1. auto. }
  destruct Hq1 as [Hoq1 Hlq1]. rewrite Hlq1. cbn [bind]. rewrite val_eta. assert (L1 : length h1 = length h) by apply set_block_length.
  destruct (copy_ok (fuel_of h1) h1 vq tq Aq ltac:(lia) Hoq1) as (e & o & A' & E & Ho' & Hn' & Hfr). { unfold fuel_of. pose proof (owned_fits _ _ _ _ Hoq1 Hnq). lia. }
  rewrite E. cbn [bind]. assert (Hc1 : cell_at h1 a (set_slot b sl v1)) by (eapply cell_set; eauto). pose proof (cell_lt _ _ _ Hc1) as Hlt.
  assert (Hc2 : cell_at (h1 ++ e) a (set_slot b sl v1)). { eapply cell_frame; [|exact Hc1]. now apply nth_error_app1. }
  rewrite (store_ok _ _ _ _ _ _ Hc2 (slot_set _ _ _ _ Hs)). rewrite (set_slot_twice _ _ _ _ _ Hs). set (v2 := mkV (v_kind vq) (held o (v_hold v0))). set (h3 := set_block (h1 ++ e) a (set_slot b sl v2)).
  assert (HArlt : forall x, 0 < cnt Ar x -> x < length h). { intros x Hx. apply (proj1 (owns_lt h) _ _ _ Ho). apply cnt_in. rewrite Hcnt. lia. }
  destruct (Hr h3 v2 tq A') as (A3 & Ho3 & Hcnt3).
  - eapply cell_set; eauto.
  - intros x Hx Hi. unfold h3. rewrite set_block_other by auto. rewrite nth_error_app1 by (rewrite L1; auto). unfold h1. rewrite set_block_other by auto. reflexivity.
  - apply (frame (h1 ++ e)); [apply Ho'|]. intros x Hx. unfold h3. apply set_block_other. intros <-. apply cnt_in in Hx. apply Hfr in Hx. lia.
  - exists h3, A3. split; auto. split; auto. split.
    + intros x. rewrite Hcnt3. specialize (Hfr x). specialize (Hn' x). specialize (HArlt x). specialize (Hn x). rewrite Hcnt in Hn. lia.
    + unfold h3. rewrite set_block_length, app_length. lia.
Qed.
