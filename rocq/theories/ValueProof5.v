(** One operation. *)
From Verif Require Import Base ValueSpec ValueModel ValueProof ValueProof2 ValueProof3 ValueProof4.
From Coq Require Import List NArith ZArith Bool Lia Arith.
Import ListNotations.

Lemma kind_eqb_spec a b : reflect (a = b) (kind_eqb a b).
Proof. destruct a, b; constructor; congruence. Qed.
Lemma set_block_live h a b a' b' : cell_at h a b -> a <> a' -> cell_at (set_block h a' b') a b.
Proof. intros H Hn. eapply cell_frame; [|exact H]. apply set_block_other. auto. Qed.

Definition sim (s : state) (o : op) (r : option (env * option exn)) : Prop :=
  match r with
  | Some (e', None) => exists s', step_op s o = Ret s' /\ inv s' e'
  | Some (_, Some x) => step_op s o = Throw x
  | None => True
  end.

Lemma sim_new al h e A x c : invA al h e A -> sim (mkS al h) (New x c) (astep e (New x c)).
Proof.
  intros Hi. cbn [astep_of]. destruct (is_fresh e x) eqn:Hf; [|exact I]. cbn [sim step_op s_mem s_alive].
  assert (G : forall b v t, owns (h ++ [Heap b]) v t [length h] -> exists s', begin_var al (h ++ [Heap b]) x v = Ret s' /\ inv s' (evar e x true t)).
  { intros b v t Ho. apply (begin_ok _ _ _ A _ _ _ [length h]); auto. { now apply inv_grow. } intros y. pose proof (inv_lt _ _ _ _ y Hi) as Hl. destruct Hi as (_ & _ & _ & Hi). specialize (Hi y). destruct (Nat.eq_dec (length h) y) as [E|E]; [|rewrite (cnt_other _ _ E); lia]. rewrite <- E in *. rewrite cnt_one. lia. }
  assert (Hcell : forall b, cell_at (h ++ [Heap b]) (length h) b). { intros b. unfold cell_at. rewrite nth_mid. pose proof (inv_pos _ _ _ _ Hi). destruct (Nat.eqb_spec (length h) 0); [lia|reflexivity]. }
  destruct c; cbn [construct tree_of].
  - apply (begin_ok _ _ _ A _ _ _ []); auto; [constructor|]. intros y. rewrite cnt_nil. apply Hi.
  - apply (begin_ok _ _ _ A _ _ _ []); auto; [constructor|]. intros y. rewrite cnt_nil. apply Hi.
  - apply G. now constructor.
  - apply G. now constructor.
  - apply G. econstructor; [apply Hcell|constructor].
  - apply G. econstructor; [apply Hcell|reflexivity|constructor|constructor].
Qed.

Lemma sim_copy al h e A x p : invA al h e A -> sim (mkS al h) (Copy x p) (astep e (Copy x p)).
Proof.
  intros Hi. cbn [astep_of]. destruct (eget e p) as [t|y|] eqn:Eg; [|cbn [sim step_op]; now rewrite (find_missing _ _ _ _ _ _ Hi Eg)|exact I]. destruct (is_fresh e x) eqn:Hf; [|exact I].
  destruct (at_place _ _ _ _ _ _ Hi Eg) as (a & sl & b & v0 & A0 & Ar & Hp & _ & Hc & Hs & Hl & Ho & Hcnt & _). cbn [sim step_op s_mem s_alive]. rewrite Hp. cbn [bind]. rewrite Hl. cbn [bind].
  destruct (copy_begin al h e A x v0 t A0 Hi Hf Ho) as (h' & w & s' & E1 & E2 & Hs'). { intros y. destruct Hi as (_ & _ & _ & Hi). specialize (Hi y). rewrite Hcnt in Hi. lia. }
  rewrite E1. cbn [bind]. eauto.
Qed.

Lemma sim_move al h e A x p : invA al h e A -> sim (mkS al h) (Move x p) (astep e (Move x p)).
Proof.
  intros Hi. cbn [astep_of]. destruct (eget e p) as [t|y|] eqn:Eg; [|cbn [sim step_op]; now rewrite (find_missing _ _ _ _ _ _ Hi Eg)|exact I]. destruct (is_fresh e x) eqn:Hf; [|exact I].
  destruct (at_place _ _ _ _ _ _ Hi Eg) as (a & sl & b & v0 & A0 & Ar & Hp & _ & Hc & Hs & Hl & Ho & Hcnt & Har & _ & Hr & _). cbn [sim step_op s_mem s_alive]. rewrite Hp. cbn [bind]. rewrite Hl. cbn [bind].
  rewrite (store_ok _ _ _ _ _ _ Hc Hs). cbn [bind]. assert (Hn : forall y, cnt A0 y + cnt Ar y <= 1). { intros y. rewrite <- Hcnt. apply Hi. }
  set (h' := set_block h a (set_slot b sl (mkV KUndef (v_hold v0)))).
  destruct (Hr h' (mkV KUndef (v_hold v0)) TUndef []) as (A' & Hi' & Hcnt').
  - eapply cell_set; eauto.
  - intros y Hy _. apply set_block_other. auto.
  - constructor.
  - intros y. rewrite cnt_nil. specialize (Hn y). lia.
  - apply (begin_ok _ _ _ A' _ _ _ A0); auto.
    + apply (frame h); auto. intros y Hy. apply set_block_other. intros <-. apply cnt_in in Hy. specialize (Hn a). lia.
    + intros y. rewrite Hcnt', cnt_nil. specialize (Hn y). lia.
Qed.

Lemma full_apart al h e A p q t u a sl aq sq vq Aq : invA al h e A -> tget (full p) (whole e) = Found t -> walk h root (At (fst p)) (snd p) = Ret (a, sl) ->
  tget (full q) (whole e) = Found u -> walk h root (At (fst q)) (snd q) = Ret (aq, sq) -> load h (aq, sq) = Ret vq -> owns h vq u Aq -> prefix (full q) (full p) = false -> cnt Aq a = 0.
Proof.
  intros (_ & _ & Ho & Hn) Hp Wp Hq Wq Hl Hoq Hpre. eapply (apart (snd p) (At (fst p)) (snd q) (At (fst q)) h root (whole e) A t u a sl aq sq vq Aq); eauto. unfold full in Hpre. congruence.
Qed.
Lemma eget_tget e p t : eget e p = Found t -> tget (full p) (whole e) = Found t.
Proof. unfold eget. destruct (is_alive _ _); [auto|discriminate]. Qed.

Lemma sim_assign al h e A p q : invA al h e A -> sim (mkS al h) (Assign p q) (astep e (Assign p q)).
Proof.
  intros Hi. cbn [astep_of]. destruct (eget e q) as [u|y|] eqn:Eq; [|cbn [sim step_op]; now rewrite (find_missing _ _ _ _ _ _ Hi Eq)|exact I].
  destruct (at_place _ _ _ _ _ _ Hi Eq) as (aq & sq & bq & vq & Aq & Aqr & Hq & Wq & Hcq & Hsq & Hlq & Hoq & Hcntq & _).
  destruct (eget e p) as [t|y|] eqn:Ep; [|cbn [sim step_op]; rewrite Hq; cbn [bind]; now rewrite (find_missing _ _ _ _ _ _ Hi Ep)|exact I].
  destruct (at_place _ _ _ _ _ _ Hi Ep) as (a & sl & b & v0 & A0 & Ar & Hp & Wp & _).
  cbn [negb andb]. destruct (prefix (full q) (full p) && negb (kind_eqb (kind_of t) (kind_of u))) eqn:Epre; [exact I|]. cbn [sim step_op s_mem s_alive]. rewrite Hq. cbn [bind]. rewrite Hp. cbn [bind].
  destruct (assign_ok (snd p) (At (fst p)) h root (whole e) A t (a, sl) (aq, sq) vq u Aq) as (h' & A' & E & Ho' & Hn' & _); auto.
  - eapply inv_pos; eauto.
  - apply Hi.
  - apply Hi.
  - now apply eget_tget.
  - intros x. destruct Hi as (_ & _ & _ & Hn). specialize (Hn x). rewrite Hcntq in Hn. lia.
  - cbn [fst]. destruct (prefix (full q) (full p)) eqn:E1; [right|left].
    + cbn [andb] in Epre. destruct (kind_eqb_spec (kind_of t) (kind_of u)); [auto|discriminate].
    + apply (full_apart _ _ _ _ _ _ _ _ _ _ _ _ _ _ Hi (eget_tget _ _ _ Ep) Wp (eget_tget _ _ _ Eq) Wq Hlq Hoq E1).
  - rewrite E. cbn [bind]. eexists. split; [reflexivity|]. exists A'. cbn [s_alive s_mem]. destruct (eset_whole e p u) as [E1 E2]. destruct Hi as (-> & Hlen & _). split; [reflexivity|]. split; [cbn [eset e_alive]; congruence|]. rewrite E1. auto.
Qed.

Lemma sim_destroy al h e A x : invA al h e A -> sim (mkS al h) (Destroy x) (astep e (Destroy x)).
Proof.
  intros Hi. cbn [astep_of]. destruct (is_alive (e_alive e) x) eqn:Ea; [|exact I].
  assert (Hx : x < length (e_vars e)). { destruct Hi as (_ & Hlen & _). rewrite <- Hlen. destruct (lt_dec x (length (e_alive e))); auto. unfold is_alive in Ea. rewrite nth_overflow in Ea by lia. discriminate. }
  destruct (nth_error (e_vars e) x) as [t|] eqn:En; [|apply nth_error_None in En; lia].
  assert (Eg : eget e (x, []) = Found t). { unfold eget, full, whole. cbn [fst snd tget child]. now rewrite Ea, En. }
  destruct (at_place _ _ _ _ _ _ Hi Eg) as (a & sl & b & v0 & A0 & Ar & Hp & _ & Hc & Hs & Hl & Ho & Hcnt & Har & Hz & Hr & _). cbn [sim step_op s_mem s_alive]. rewrite Hp. cbn [bind]. rewrite Hl. cbn [bind].
  assert (Hn : forall y, cnt A0 y + cnt Ar y <= 1). { intros y. rewrite <- Hcnt. apply Hi. }
  assert (Hn0 : forall y, cnt A0 y <= 1). { intros y. specialize (Hn y). lia. }
  destruct (destroy_ok (fuel_of h) h v0 t A0 Ho Hz Hn0) as (h' & E & Hlen & Hfr). { unfold fuel_of. pose proof (owned_fits _ _ _ _ Ho Hn0). lia. }
  rewrite E. cbn [bind]. assert (Hc' : cell_at h' a b). { eapply cell_frame; [|exact Hc]. apply Hfr. specialize (Hn a). lia. }
  rewrite (store_ok _ _ _ _ _ _ Hc' Hs). cbn [bind]. eexists. split; [reflexivity|].
  destruct (Hr (set_block h' a (set_slot b sl (mkV KUndef HNull))) (mkV KUndef HNull) TUndef []) as (A' & (H1 & H2 & H3 & H4) & _).
  - eapply cell_set; eauto.
  - intros y Hy Hi2. rewrite set_block_other by auto. apply Hfr. specialize (Hn y). lia.
  - constructor.
  - intros y. rewrite cnt_nil. specialize (Hn y). lia.
  - exists A'. cbn [s_alive s_mem]. assert (Ev : e_vars (eset e (x, []) TUndef) = set_nth x TUndef (e_vars e)). { unfold eset, full, whole. cbn [fst snd e_vars tset child]. rewrite En. reflexivity. }
    destruct Hi as (-> & Hl2 & _). split; [reflexivity|]. split; [cbn [evar e_alive e_vars]; rewrite !set_nth_length; auto|]. split; auto. unfold whole in *. cbn [evar e_vars]. rewrite <- Ev. exact H3.
Qed.

(** the block of a value is changed in place *)
Lemma sim_setint al h e A p z : invA al h e A -> sim (mkS al h) (SetInt p z) (astep e (SetInt p z)).
Proof.
  intros Hi. cbn [astep_of]. destruct (eget e p) as [t|y|] eqn:Eg; [|cbn [sim step_op]; now rewrite (find_missing _ _ _ _ _ _ Hi Eg)|exact I]. destruct t as [| |z0| | |]; try exact I.
  destruct (at_place _ _ _ _ _ _ Hi Eg) as (a & sl & b & v0 & A0 & Ar & Hp & _ & Hc & Hs & Hl & Ho & Hcnt & Har & _ & _ & Hr). cbn [sim step_op s_mem s_alive]. rewrite Hp. cbn [bind]. rewrite Hl. cbn [bind].
  assert (Hn : forall y, cnt A0 y + cnt Ar y <= 1). { intros y. rewrite <- Hcnt. apply Hi. }
  inversion Ho as [| |a0 ? Hc0| | |]; subst. cbn [v_hold deref]. rewrite (cell_live _ _ _ Hc0). cbn [bind]. eexists. split; [reflexivity|].
  destruct (Hr (set_block h a0 (BInt z)) (TInt z) [a0]) as (A' & Hi' & _); auto.
  - intros y Hy. apply set_block_other. intros <-. specialize (Hn a0). rewrite cnt_one in Hn. lia.
  - constructor. eapply cell_set; eauto.
  - exists A'. exact Hi'.
Qed.
Lemma sim_setstr al h e A p z : invA al h e A -> sim (mkS al h) (SetStr p z) (astep e (SetStr p z)).
Proof.
  intros Hi. cbn [astep_of]. destruct (eget e p) as [t|y|] eqn:Eg; [|cbn [sim step_op]; now rewrite (find_missing _ _ _ _ _ _ Hi Eg)|exact I]. destruct t as [| | |z0| |]; try exact I.
  destruct (at_place _ _ _ _ _ _ Hi Eg) as (a & sl & b & v0 & A0 & Ar & Hp & _ & Hc & Hs & Hl & Ho & Hcnt & Har & _ & _ & Hr). cbn [sim step_op s_mem s_alive]. rewrite Hp. cbn [bind]. rewrite Hl. cbn [bind].
  assert (Hn : forall y, cnt A0 y + cnt Ar y <= 1). { intros y. rewrite <- Hcnt. apply Hi. }
  inversion Ho as [| | |a0 ? Hc0| |]; subst. cbn [v_hold deref]. rewrite (cell_live _ _ _ Hc0). cbn [bind]. eexists. split; [reflexivity|].
  destruct (Hr (set_block h a0 (BStr z)) (TStr z) [a0]) as (A' & Hi' & _); auto.
  - intros y Hy. apply set_block_other. intros <-. specialize (Hn a0). rewrite cnt_one in Hn. lia.
  - constructor. eapply cell_set; eauto.
  - exists A'. exact Hi'.
Qed.

(** an array is replaced by elements it owns, or that own nothing *)
Lemma array_set h a0 vs l A1 Ar vs' l' A1' : cell_at h a0 (BArr vs) -> owns_list h vs l A1 -> (forall y, cnt (a0 :: A1) y + cnt Ar y <= 1) -> owns_list h vs' l' A1' -> (forall y, cnt A1' y <= cnt A1 y) ->
  owns (set_block h a0 (BArr vs')) (mkV KArr (HPtr a0)) (TArr l') (a0 :: A1') /\ (forall y, 0 < cnt Ar y -> nth_error (set_block h a0 (BArr vs')) y = nth_error h y) /\ (forall y, cnt (a0 :: A1') y + cnt Ar y <= 1).
Proof.
  intros Hc Hl Hn Hl' Hle. split; [|split].
  - econstructor; [eapply cell_set; eauto|]. apply (frame_list h); auto. intros y Hy. apply set_block_other. intros <-. apply cnt_in in Hy. specialize (Hn a0). specialize (Hle a0). rewrite (cnt_cons a0 A1), cnt_one in Hn. lia.
  - intros y Hy. apply set_block_other. intros <-. specialize (Hn a0). rewrite (cnt_cons a0 A1), cnt_one in Hn. lia.
  - intros y. specialize (Hn y). specialize (Hle y). rewrite (cnt_cons a0 A1) in Hn. rewrite (cnt_cons a0 A1'). lia.
Qed.
Lemma owns_undefs h n g : owns_list h (repeat (mkV KUndef g) n) (repeat TUndef n) [].
Proof. induction n as [|n IH]; cbn [repeat]; [constructor|]. apply (OL_cons _ _ _ [] _ _ []); auto. constructor. Qed.
Lemma owns_firstn h vs l A n : owns_list h vs l A -> exists A', owns_list h (firstn n vs) (firstn n l) A' /\ forall y, cnt A' y <= cnt A y.
Proof.
  intros H. revert n. induction H as [|v t A0 vs0 ts0 B Hv Hl IH]; intros [|n]; cbn [firstn]; try (exists []; split; [constructor|intros; rewrite cnt_nil; lia]).
  destruct (IH n) as (A' & H1 & H2). exists (A0 ++ A'). split; [now constructor|]. intros y. rewrite !cnt_app. specialize (H2 y). lia.
Qed.

Lemma sim_resize al h e A p n : invA al h e A -> sim (mkS al h) (Resize p n) (astep e (Resize p n)).
Proof.
  intros Hi. cbn [astep_of]. destruct (eget e p) as [t|y|] eqn:Eg; [|cbn [sim step_op]; now rewrite (find_missing _ _ _ _ _ _ Hi Eg)|exact I]. destruct t as [| | | |l|]; try exact I.
  destruct (at_place _ _ _ _ _ _ Hi Eg) as (a & sl & b & v0 & A0 & Ar & Hp & _ & Hc & Hs & Hl & Ho & Hcnt & Har & _ & _ & Hr). cbn [sim step_op s_mem s_alive]. rewrite Hp. cbn [bind]. rewrite Hl. cbn [bind].
  assert (Hn : forall y, cnt A0 y + cnt Ar y <= 1). { intros y. rewrite <- Hcnt. apply Hi. }
  inversion Ho as [| | | |a0 vs ? A1 Hc0 Hvs|]; subst. cbn [v_hold deref]. rewrite (cell_live _ _ _ Hc0). cbn [bind]. eexists. split; [reflexivity|].
  destruct (owns_firstn _ _ _ _ n Hvs) as (A2 & Hf & Hle). pose proof (owns_list_app _ _ _ _ _ _ _ Hf (owns_undefs h (n - length l) HGarbage)) as Hall. rewrite app_nil_r, <- (owns_list_length _ _ _ _ Hvs) in Hall.
  destruct (array_set h a0 vs l A1 Ar _ _ _ Hc0 Hvs Hn Hall Hle) as (H1 & H2 & H3). destruct (Hr _ _ _ H2 H1 H3) as (A' & Hi' & _). exists A'. cbn [s_alive s_mem]. rewrite <- (owns_list_length _ _ _ _ Hvs). exact Hi'.
Qed.
Lemma sim_clear al h e A p : invA al h e A -> sim (mkS al h) (Clear p) (astep e (Clear p)).
Proof.
  intros Hi. cbn [astep_of]. destruct (eget e p) as [t|y|] eqn:Eg; [|cbn [sim step_op]; now rewrite (find_missing _ _ _ _ _ _ Hi Eg)|exact I]. destruct t as [| | | |l|]; try exact I.
  destruct (at_place _ _ _ _ _ _ Hi Eg) as (a & sl & b & v0 & A0 & Ar & Hp & _ & Hc & Hs & Hl & Ho & Hcnt & Har & _ & _ & Hr). cbn [sim step_op s_mem s_alive]. rewrite Hp. cbn [bind]. rewrite Hl. cbn [bind].
  assert (Hn : forall y, cnt A0 y + cnt Ar y <= 1). { intros y. rewrite <- Hcnt. apply Hi. }
  inversion Ho as [| | | |a0 vs ? A1 Hc0 Hvs|]; subst. cbn [v_hold deref]. rewrite (cell_live _ _ _ Hc0). cbn [bind]. eexists. split; [reflexivity|].
  destruct (array_set h a0 vs l A1 Ar [] [] [] Hc0 Hvs Hn (OL_nil h)) as (H1 & H2 & H3). { intros y. rewrite cnt_nil. lia. } destruct (Hr _ _ _ H2 H1 H3) as (A' & Hi' & _). exists A'. exact Hi'.
Qed.
Lemma sim_pop al h e A x p : invA al h e A -> sim (mkS al h) (Pop x p) (astep e (Pop x p)).
Proof.
  intros Hi. cbn [astep_of]. destruct (eget e p) as [t|y|] eqn:Eg; [|cbn [sim step_op]; now rewrite (find_missing _ _ _ _ _ _ Hi Eg)|exact I]. destruct t as [| | | |l|]; try exact I. destruct (is_fresh e x) eqn:Hf; [|exact I].
  destruct (rev l) as [|u r] eqn:Erev; [exact I|]. apply (f_equal (@rev _)) in Erev. rewrite rev_involutive in Erev. cbn [rev] in Erev. subst l.
  destruct (at_place _ _ _ _ _ _ Hi Eg) as (a & sl & b & v0 & A0 & Ar & Hp & _ & Hc & Hs & Hl & Ho & Hcnt & Har & _ & _ & Hr). cbn [sim step_op s_mem s_alive]. rewrite Hp. cbn [bind]. rewrite Hl. cbn [bind].
  assert (Hn : forall y, cnt A0 y + cnt Ar y <= 1). { intros y. rewrite <- Hcnt. apply Hi. }
  inversion Ho as [| | | |a0 vs ? A1 Hc0 Hvs|]; subst. cbn [v_hold deref]. rewrite (cell_live _ _ _ Hc0). cbn [bind].
  pose proof Hvs as Hvs0. apply owns_list_mid in Hvs as (vs1 & w & vs2 & A2 & Aw & A3 & -> & -> & H1 & Hw & H3 & _). inversion H3; subst. rewrite app_nil_r in *.
  rewrite rev_app_distr. cbn [rev app]. rewrite rev_involutive.
  destruct (array_set h a0 (vs1 ++ [w]) (rev r ++ [u]) (A2 ++ Aw) Ar vs1 (rev r) A2 Hc0 Hvs0 Hn H1) as (G1 & G2 & G3). { intros y. rewrite cnt_app. lia. }
  destruct (Hr _ _ _ G2 G1 G3) as (A' & Hi' & _).
  destruct (copy_begin al _ _ A' x w u Aw Hi') as (h' & w' & s' & E1 & E2 & Hs').
  - exact Hf.
  - apply (frame h); auto. intros y Hy. apply set_block_other. intros <-. apply cnt_in in Hy. specialize (Hn a0). rewrite (cnt_cons a0 (A2 ++ Aw)), cnt_one, cnt_app in Hn. lia.
  - intros y. specialize (Hn y). rewrite (cnt_cons a0 (A2 ++ Aw)), cnt_app in Hn. lia.
  - rewrite E1. cbn [bind]. eauto.
Qed.
