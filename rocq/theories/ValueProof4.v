(** The memory of a program that respects the claim shows independent values. *)
From Verif Require Import Base ValueSpec ValueModel ValueProof ValueProof2 ValueProof3.
From Coq Require Import List NArith ZArith Bool Lia Arith.
Import ListNotations.

Definition root : val := mkV KArr (HPtr 0).
Definition invA (al : list bool) (h : heap) (e : env) (A : list nat) : Prop :=
  al = e_alive e /\ length (e_alive e) = length (e_vars e) /\ owns h root (whole e) A /\ forall x, cnt A x <= 1.
Definition inv (s : state) (e : env) : Prop := exists A, invA (s_alive s) (s_mem s) e A.

Lemma eset_whole e p u : whole (eset e p u) = tset (full p) u (whole e) /\ length (e_vars (eset e p u)) = length (e_vars e).
Proof.
  unfold eset, full, whole. cbn [e_vars tset child]. destruct (nth_error (e_vars e) (fst p)); cbn [set_child vars_of]; auto. split; auto. apply set_nth_length.
Qed.
Lemma eset_twice e p t u w : eget e p = Found t -> eset (eset e p u) p w = eset e p w.
Proof.
  unfold eget. destruct (is_alive _ _); [|discriminate]. intros H. unfold eset at 1. rewrite (proj1 (eset_whole e p u)), (tset_twice _ _ _ _ _ H). reflexivity.
Qed.
Lemma inv_pos al h e A : invA al h e A -> 0 < length h.
Proof. intros (_ & _ & Ho & _). inversion Ho as [| | | |a vs ? A0 Hc Hl|]; subst. eapply Nat.le_lt_trans; [|eapply cell_lt; eauto]. lia. Qed.

Lemma find_missing al h e A p x : invA al h e A -> eget e p = Missing x -> find_place (mkS al h) p = Throw x.
Proof.
  intros (-> & Hlen & Ho & Hn) H. unfold eget in H. unfold find_place. cbn [s_alive s_mem]. destruct (is_alive _ _) eqn:Ea; [|discriminate].
  assert (Hx : fst p < length (e_vars e)). { rewrite <- Hlen. destruct (lt_dec (fst p) (length (e_alive e))); auto. unfold is_alive in Ea. rewrite nth_overflow in Ea by lia. discriminate. }
  destruct (nth_error (e_vars e) (fst p)) as [tc|] eqn:En; [|apply nth_error_None in En; lia].
  assert (Hc : child (At (fst p)) (whole e) = Found tc) by (cbn [child whole]; now rewrite En).
  pose proof (walk_missing _ _ _ _ _ _ _ Ho H) as Hw. destruct (owns_child _ _ _ _ _ _ Ho Hc) as (a & b & vc & A1 & Ac & A2 & Hp & _ & _ & _ & _ & He & _). unfold walk in Hw. rewrite He in Hw. injection Hp as <-. exact Hw.
Qed.

Lemma at_place al h e A p t0 : invA al h e A -> eget e p = Found t0 ->
  exists a sl b v0 A0 Ar, find_place (mkS al h) p = Ret (a, sl) /\ walk h root (At (fst p)) (snd p) = Ret (a, sl) /\ cell_at h a b /\ slot b sl = Some v0 /\ load h (a, sl) = Ret v0 /\ owns h v0 t0 A0 /\
    (forall x, cnt A x = cnt A0 x + cnt Ar x) /\ 0 < cnt Ar a /\ cnt A0 0 = 0 /\
    (forall h' v0' t0' A0', cell_at h' a (set_slot b sl v0') -> (forall x, x <> a -> 0 < cnt Ar x -> nth_error h' x = nth_error h x) -> owns h' v0' t0' A0' -> (forall x, cnt A0' x + cnt Ar x <= 1) ->
      exists A', invA al h' (eset e p t0') A' /\ forall x, cnt A' x = cnt A0' x + cnt Ar x) /\
    (forall h' t0' A0', (forall x, 0 < cnt Ar x -> nth_error h' x = nth_error h x) -> owns h' v0 t0' A0' -> (forall x, cnt A0' x + cnt Ar x <= 1) ->
      exists A', invA al h' (eset e p t0') A' /\ forall x, cnt A' x = cnt A0' x + cnt Ar x).
Proof.
  intros (-> & Hlen & Ho & Hn) H. unfold eget in H. unfold find_place. cbn [s_alive s_mem]. destruct (is_alive _ _) eqn:Ea; [|discriminate].
  destruct (focus (snd p) (At (fst p)) h root (whole e) A t0 Ho Hn H) as (a & sl & b & v0 & A0 & Ar & Hw & Hc & Hs & Ho0 & Hcnt & Har & Hr). exists a, sl, b, v0, A0, Ar.
  assert (Hz : cnt A0 0 = 0 /\ locate h (0, At (fst p)) (snd p) = Ret (a, sl)).
  { unfold full in H. cbn [tget] in H. destruct (child (At (fst p)) (whole e)) as [tc| |] eqn:Ec; try discriminate.
    destruct (owns_child _ _ _ _ _ _ Ho Ec) as (a1 & b1 & vc & A1 & Ac & A2 & Hp & Hc1 & Hs1 & Hoc & -> & He & _). injection Hp as <-. pose proof Hw as Hw1. unfold walk in Hw. rewrite He in Hw. cbn [bind] in Hw. split; auto.
    assert (Hac : forall x, cnt Ac x <= 1). { intros x. specialize (Hn x). rewrite (cnt_cons 0), !cnt_app in Hn. lia. }
    assert (Hac0 : cnt Ac 0 = 0). { specialize (Hn 0). rewrite (cnt_cons 0), !cnt_app, cnt_one in Hn. lia. }
    destruct (snd p) as [|s' p'].
    - cbn [locate] in Hw. injection Hw as <- <-. cbn [tget] in H. injection H as ->. assert (b1 = b) as ->. { unfold cell_at in *. rewrite Hc1 in Hc. destruct (0 =? 0); congruence. } rewrite Hs1 in Hs. injection Hs as <-.
      destruct (owns_unique _ _ _ _ _ _ Hoc Ho0) as [_ <-]. exact Hac0.
    - cbn [locate] in Hw. rewrite (load_ok _ _ _ _ _ Hc1 Hs1) in Hw. cbn [bind] in Hw. destruct (walk_sub p' s' h vc tc Ac t0 a sl v0 t0 A0 Hoc Hac H Hw (load_ok _ _ _ _ _ Hc Hs) Ho0) as [_ Hle]. specialize (Hle 0). lia. }
  destruct Hz as [Hz Hloc].
  assert (Hrep : forall h' v0' t0' A0', cell_at h' a (set_slot b sl v0') -> (forall x, x <> a -> 0 < cnt Ar x -> nth_error h' x = nth_error h x) -> owns h' v0' t0' A0' -> (forall x, cnt A0' x + cnt Ar x <= 1) ->
      exists A', invA (e_alive e) h' (eset e p t0') A' /\ forall x, cnt A' x = cnt A0' x + cnt Ar x).
  { intros h' v0' t0' A0' H1 H2 H3 H4. destruct (Hr h' v0' t0' A0' H1 H2 H3) as (A' & Ho' & Hcnt'). exists A'. split; auto. destruct (eset_whole e p t0') as [E1 E2]. split; [reflexivity|]. split; [cbn [eset e_alive]; congruence|]. rewrite E1. split; auto. intros x. rewrite Hcnt'. auto. }
  repeat (split; [now auto|]). split; [eapply load_ok; eauto|]. repeat (split; [now auto|]).
  intros h' t0' A0' H1 H2 H3. apply (Hrep h' v0); auto. rewrite (set_slot_id _ _ _ Hs). eapply cell_frame; [|exact Hc]. auto.
Qed.

(** a variable begins to live *)
Lemma fresh_alive e x : is_fresh e x = true -> nth_error (e_alive e) x = Some false.
Proof. unfold is_fresh. destruct (nth_error _ _) as [[]|]; auto; discriminate. Qed.
Lemma begin_ok al h e A x v t Av : invA al h e A -> is_fresh e x = true -> owns h v t Av -> (forall y, cnt Av y + cnt A y <= 1) ->
  exists s', begin_var al h x v = Ret s' /\ inv s' (evar e x true t).
Proof.
  intros (-> & Hlen & Ho & Hn) Hf Hv Hd. pose proof (fresh_alive _ _ Hf) as Hx. unfold begin_var. rewrite Hx.
  assert (Hlt : x < length (e_vars e)). { rewrite <- Hlen. apply nth_error_Some. congruence. }
  destruct (nth_error (e_vars e) x) as [tc|] eqn:En; [|apply nth_error_None in En; lia].
  assert (Hc : child (At x) (whole e) = Found tc) by (cbn [child whole]; now rewrite En).
  destruct (owns_child _ _ _ _ _ _ Ho Hc) as (a1 & b1 & vc & A1 & Ac & A2 & Hp & Hc1 & Hs1 & Hoc & -> & He & Hr). injection Hp as <-.
  rewrite (store_ok _ _ _ _ _ v Hc1 Hs1). cbn [bind]. eexists. split; [reflexivity|].
  assert (H0 : cnt Av 0 = 0). { specialize (Hd 0). rewrite (cnt_cons 0), cnt_one in Hd. lia. }
  exists (0 :: A1 ++ Av ++ A2). cbn [s_alive s_mem evar e_alive e_vars]. split; [reflexivity|]. split; [cbn [evar e_alive e_vars]; rewrite !set_nth_length; auto|]. split.
  - apply (Hr (set_block h 0 (set_slot b1 (At x) v)) v t Av).
    + eapply cell_set; eauto.
    + intros y Hy. apply set_block_other. intros <-. specialize (Hn 0). apply cnt_in in Hy. rewrite (cnt_cons 0), !cnt_app, cnt_one in Hn. rewrite cnt_app in Hy. lia.
    + apply (frame h); auto. intros y Hy. apply set_block_other. intros <-. apply cnt_in in Hy. lia.
  - intros y. specialize (Hd y). rewrite (cnt_cons 0), !cnt_app in *. lia.
Qed.
Lemma fresh_eset e p u x : is_fresh (eset e p u) x = is_fresh e x.
Proof. reflexivity. Qed.
Lemma inv_grow al h e A ex : invA al h e A -> invA al (h ++ ex) e A.
Proof. intros (H1 & H2 & H3 & H4). split; auto. split; auto. split; auto. now apply owns_grow. Qed.
Lemma inv_lt al h e A x : invA al h e A -> 0 < cnt A x -> x < length h.
Proof. intros (_ & _ & Ho & _) H. apply (proj1 (owns_lt h) _ _ _ Ho). now apply cnt_in. Qed.
Lemma copy_begin al h e A x v t Av : invA al h e A -> is_fresh e x = true -> owns h v t Av -> (forall y, cnt Av y <= 1) ->
  exists h' w s', copy_construct h v = Ret (h', w) /\ begin_var al h' x w = Ret s' /\ inv s' (evar e x true t).
Proof.
  intros Hi Hf Hv Hn. pose proof (inv_pos _ _ _ _ Hi) as Hpos.
  destruct (copy_ok (fuel_of h) h v t Av Hpos Hv) as (ex & o & A' & E & Ho' & Hn' & Hfr). { unfold fuel_of. pose proof (owned_fits _ _ _ _ Hv Hn). lia. }
  destruct (begin_ok al (h ++ ex) e A x (mkV (v_kind v) (held o HNull)) t A') as (s' & E2 & Hs').
  - now apply inv_grow.
  - auto.
  - apply Ho'.
  - intros y. specialize (Hn' y). specialize (Hfr y). pose proof (inv_lt _ _ _ _ y Hi) as Hl. destruct Hi as (_ & _ & _ & Hi). specialize (Hi y). lia.
  - exists (h ++ ex), (mkV (v_kind v) (held o HNull)), s'. unfold copy_construct. rewrite E. cbn [bind]. auto.
Qed.
