(** Operations that add and remove elements, and whole programs. *)
From Verif Require Import Base ValueSpec ValueModel ValueProof ValueProof2 ValueProof3 ValueProof4 ValueProof5.
From Coq Require Import List NArith ZArith Bool Lia Arith.
Import ListNotations.

Lemma map_app_inv {A B} (f : A -> B) l r1 r2 : map f l = r1 ++ r2 -> exists l1 l2, l = l1 ++ l2 /\ map f l1 = r1 /\ map f l2 = r2.
Proof. apply map_split. Qed.
Lemma obj_split h (ms : list (bytes * val)) (mt : list (bytes * tree)) A k tc : map fst ms = map fst mt -> owns_list h (map snd ms) (map snd mt) A -> assoc k mt = Some tc ->
  exists ms1 vc ms2 mt1 mt2 A1 Ac A2, ms = ms1 ++ (k, vc) :: ms2 /\ mt = mt1 ++ (k, tc) :: mt2 /\ ~ In k (map fst ms1) /\ ~ In k (map fst mt1) /\ map fst ms1 = map fst mt1 /\ map fst ms2 = map fst mt2 /\
    A = A1 ++ Ac ++ A2 /\ owns_list h (map snd ms1) (map snd mt1) A1 /\ owns h vc tc Ac /\ owns_list h (map snd ms2) (map snd mt2) A2.
Proof.
  intros Hf Hl En. apply assoc_split in En as (mt1 & mt2 & -> & Hk). rewrite map_app in Hf, Hl. cbn [map fst snd] in Hf, Hl.
  apply owns_list_mid in Hl as (vs1 & vc & vs2 & A1 & Ac & A2 & E & -> & H1 & Hv & H2 & Hlen). apply map_split in E as (ms1 & r & -> & <- & E2). destruct r as [|[k' v'] ms2]; [discriminate|]. cbn [map snd] in E2. injection E2 as -> <-.
  rewrite map_app in Hf. cbn [map fst] in Hf. rewrite !map_length in Hlen.
  assert (E : map fst ms1 = map fst mt1 /\ k' :: map fst ms2 = k :: map fst mt2).
  { clear - Hf Hlen. revert mt1 Hf Hlen. induction ms1 as [|x ms1 IH]; intros [|y mt1] Hf Hlen; try discriminate; cbn in *; auto. injection Hf as E Hf. injection Hlen as Hlen. destruct (IH _ Hf Hlen). split; congruence. }
  destruct E as [E1 E2]. injection E2 as -> E2. exists ms1, vc, ms2, mt1, mt2, A1, Ac, A2. rewrite E1. repeat split; auto.
Qed.

Lemma sim_erase al h e A p k : invA al h e A -> sim (mkS al h) (Erase p k) (astep e (Erase p k)).
Proof.
  intros Hi. cbn [astep_of]. destruct (eget e p) as [t|y|] eqn:Eg; [|cbn [sim step_op]; now rewrite (find_missing _ _ _ _ _ _ Hi Eg)|exact I]. destruct t as [| | | | |mt]; try exact I.
  destruct (at_place _ _ _ _ _ _ Hi Eg) as (a & sl & b & v0 & A0 & Ar & Hp & _ & Hc & Hs & Hl & Ho & Hcnt & Har & Hz & _ & Hr). cbn [sim step_op s_mem s_alive]. rewrite Hp. cbn [bind]. rewrite Hl. cbn [bind].
  assert (Hn : forall y, cnt A0 y + cnt Ar y <= 1). { intros y. rewrite <- Hcnt. apply Hi. }
  pose proof Ho as Ho0. inversion Ho as [| | | | |a0 ms ? A1 Hc0 Hf Hnd Hms]; subst. cbn [v_hold deref]. rewrite (cell_live _ _ _ Hc0). cbn [bind]. destruct (assoc k mt) as [tc|] eqn:Ek.
  - destruct (obj_split _ _ _ _ _ _ Hf Hms Ek) as (ms1 & vc & ms2 & mt1 & mt2 & B1 & Ac & B2 & -> & -> & K1 & K2 & F1 & F2 & -> & O1 & Oc & O2).
    rewrite (assoc_mid k vc) by auto. assert (Hn1 : forall y, cnt [a0] y + cnt B1 y + cnt Ac y + cnt B2 y + cnt Ar y <= 1). { intros y. specialize (Hn y). rewrite (cnt_cons a0 (B1 ++ Ac ++ B2)), !cnt_app in Hn. lia. }
    assert (Hac : forall y, cnt Ac y <= 1). { intros y. specialize (Hn1 y). lia. }
    destruct (destroy_ok (fuel_of h) h vc tc Ac Oc) as (h' & E & Hlen & Hfr); auto. { rewrite (cnt_cons a0 (B1 ++ Ac ++ B2)), !cnt_app in Hz. lia. } { unfold fuel_of. pose proof (owned_fits _ _ _ _ Oc Hac). lia. }
    rewrite E. cbn [bind]. eexists. split; [reflexivity|]. rewrite !assoc_del_mid by auto. set (h2 := set_block h' a0 (BObj (ms1 ++ ms2))).
    assert (Hne : forall y, cnt [a0] y + cnt Ac y = 0 -> nth_error h2 y = nth_error h y). { intros y Hy. unfold h2. rewrite set_block_other; [apply Hfr; lia|]. intros <-. rewrite cnt_one in Hy. lia. }
    assert (Hc' : cell_at h' a0 (BObj (ms1 ++ (k, vc) :: ms2))). { eapply cell_frame; [|exact Hc0]. apply Hfr. specialize (Hn1 a0). rewrite cnt_one in Hn1. lia. }
    destruct (Hr h2 (TObj (mt1 ++ mt2)) (a0 :: B1 ++ B2)) as (A' & Hi' & _).
    + intros y Hy. apply Hne. specialize (Hn1 y). lia.
    + apply (O_obj h2 a0 (ms1 ++ ms2)).
      * eapply cell_set; eauto.
      * rewrite !map_app. congruence.
      * rewrite map_app in *. cbn [map fst] in Hnd. eapply NoDup_remove_1; eauto.
      * rewrite !map_app. apply owns_list_app; apply (frame_list h); auto; intros y Hy; apply Hne; apply cnt_in in Hy; specialize (Hn1 y); lia.
    + intros y. specialize (Hn1 y). rewrite (cnt_cons a0 (B1 ++ B2)), cnt_app. lia.
    + exists A'. exact Hi'.
  - assert (Ek' : assoc k ms = None). { apply assoc_none. rewrite Hf. now apply assoc_none. } rewrite Ek'. eexists. split; [reflexivity|]. rewrite assoc_del_new by now apply assoc_none.
    destruct (Hr h (TObj mt) (a0 :: A1)) as (A' & Hi' & _); auto. exists A'. exact Hi'.
Qed.

(** assignment to an element or member *)
Lemma child_assign al h e A p q s t0 t1 u l v0 a0 lq : invA al h e A -> eget e p = Found t1 -> child s t1 = Found t0 -> eget e q = Found u ->
  (prefix (full q) (full p) = true -> kind_of t0 = kind_of u) ->
  find_place (mkS al h) p = Ret l -> load h l = Ret v0 -> v_hold v0 = HPtr a0 -> find_place (mkS al h) q = Ret lq ->
  exists h', assign h (a0, s) lq = Ret h' /\ inv (mkS al h') (eset e p (set_child s u t1)).
Proof.
  intros Hi Ep Hch Eq Hcond Fp Lp Hh Fq.
  destruct (at_place _ _ _ _ _ _ Hi Ep) as (a & sl & b & v0' & A0 & Ar & Hp & Wp & Hc & Hs & Hl & Ho & _). rewrite Fp in Hp. injection Hp as ->. rewrite Lp in Hl. injection Hl as <-.
  destruct (at_place _ _ _ _ _ _ Hi Eq) as (aq & sq & bq & vq & Aq & Aqr & Hq & Wq & Hcq & Hsq & Hlq & Hoq & Hcntq & _). rewrite Fq in Hq. injection Hq as ->.
  assert (W : walk h root (At (fst p)) (snd p ++ [s]) = Ret (a0, s)).
  { rewrite (walk_cons _ _ _ _ _ Wp), Lp. cbn [bind]. destruct (owns_child _ _ _ _ _ _ Ho Hch) as (a1 & b1 & vc & B1 & Ac & B2 & Hp1 & _ & _ & _ & _ & He & _). rewrite He. congruence. }
  pose proof (eget_tget _ _ _ Ep) as Tp. pose proof (eget_tget _ _ _ Eq) as Tq.
  assert (T : tget (At (fst p) :: snd p ++ [s]) (whole e) = Found t0). { change (At (fst p) :: snd p ++ [s]) with (full p ++ [s]). rewrite tget_app, Tp. cbn [tget]. now rewrite Hch. }
  destruct (assign_ok (snd p ++ [s]) (At (fst p)) h root (whole e) A t0 (a0, s) (aq, sq) vq u Aq) as (h' & A' & E & Ho' & Hn' & _); auto.
  - eapply inv_pos; eauto.
  - apply Hi.
  - apply Hi.
  - intros x. destruct Hi as (_ & _ & _ & Hn). specialize (Hn x). rewrite Hcntq in Hn. lia.
  - cbn [fst]. destruct (prefix (full q) (full p)) eqn:E1; [right; auto|left]. destruct Hi as (_ & _ & Hor & Hnr).
    apply (apart (snd p ++ [s]) (At (fst p)) (snd q) (At (fst q)) h root (whole e) A t0 u a0 s aq sq vq Aq); auto.
    intros P. change (At (fst p) :: snd p ++ [s]) with (full p ++ [s]) in *. apply prefix_snoc in P as [P|P]; [unfold full in *; congruence|exact P].
  - exists h'. split; auto. exists A'. cbn [s_alive s_mem]. destruct (eset_whole e p (set_child s u t1)) as [E1 E2]. destruct Hi as (-> & Hlen & _). split; [reflexivity|]. split; [cbn [eset e_alive]; congruence|]. rewrite E1.
    change (At (fst p) :: snd p ++ [s]) with (full p ++ [s]) in Ho'. rewrite (tset_app _ _ _ _ _ Tp) in Ho'. cbn [tset] in Ho'. rewrite Hch in Ho'. auto.
Qed.

(** room for one more *)
Lemma eget_grow e p q t t1 u : eget e p = Found t -> eget e q = Found u -> prefix (full q) (full p) = false -> (forall s c, child s t = Found c -> child s t1 = Found c) -> eget (eset e p t1) q = Found u.
Proof.
  intros Ep Eq P Hg. unfold eget in *. cbn [eset e_alive]. destruct (is_alive (e_alive e) (fst p)); [|discriminate]. destruct (is_alive (e_alive e) (fst q)); [|discriminate]. change (mkEnv (e_alive e) (vars_of (tset (full p) t1 (whole e)))) with (eset e p t1). rewrite (proj1 (eset_whole e p t1)).
  destruct (prefix (full p) (full q)) eqn:P2; [|rewrite (tget_div _ _ _ _ _ Ep P2 P); exact Eq].
  apply prefix_split in P2 as (r & E). rewrite E in *. rewrite tget_app, Ep in Eq. rewrite tget_app, (tget_same _ _ _ _ Ep). destruct r as [|s r]; [rewrite app_nil_r, prefix_refl in P; discriminate|].
  cbn [tget] in *. destruct (child s t) as [c| |] eqn:Ec; try discriminate. now rewrite (Hg _ _ Ec).
Qed.
Lemma eget_same e p t t1 : eget e p = Found t -> eget (eset e p t1) p = Found t1.
Proof.
  intros Ep. unfold eget in *. cbn [eset e_alive]. destruct (is_alive _ _); [|discriminate]. change (mkEnv (e_alive e) (vars_of (tset (full p) t1 (whole e)))) with (eset e p t1). rewrite (proj1 (eset_whole e p t1)). eapply tget_same; eauto.
Qed.
Lemma grow_live h a b b' : cell_at h a b -> (forall s v, slot b s = Some v -> slot b' s = Some v) -> (match b, b' with BArr vs, BArr vs' => length vs <= length vs' | BObj _, BObj _ => True | _, _ => False end) ->
  (forall l v, load h l = Ret v -> load (set_block h a b') l = Ret v) /\ (forall v s l, enter h v s = Ret l -> enter (set_block h a b') v s = Ret l).
Proof.
  intros Hc Hsl Hb. split.
  - intros [x s] v. unfold load. cbn [fst snd]. destruct (Nat.eq_dec a x) as [<-|Hx].
    + rewrite (cell_live _ _ _ Hc), (cell_live _ _ _ (cell_set _ _ _ b' Hc)). cbn [bind]. destruct (slot b s) eqn:Es; [|discriminate]. now rewrite (Hsl _ _ Es).
    + unfold live. rewrite set_block_other by auto. auto.
  - intros v s l. unfold enter. destruct (v_hold v) as [| |x|]; cbn [deref bind]; auto. destruct (Nat.eq_dec a x) as [<-|Hx].
    + rewrite (cell_live _ _ _ Hc), (cell_live _ _ _ (cell_set _ _ _ b' Hc)). cbn [bind]. destruct b as [| |vs|ms], b' as [| |vs'|ms'], s as [n|k]; try contradiction; try discriminate.
      * destruct (Nat.ltb_spec n (length vs)); [|discriminate]. destruct (Nat.ltb_spec n (length vs')); [auto|lia].
      * specialize (Hsl (Member k)). cbn [slot] in Hsl. destruct (assoc k ms) as [w|]; [|discriminate]. now rewrite (Hsl w eq_refl).
    + unfold live. rewrite set_block_other by auto. auto.
Qed.
Lemma find_grow al h h1 p l : (forall l v, load h l = Ret v -> load h1 l = Ret v) -> (forall v s l, enter h v s = Ret l -> enter h1 v s = Ret l) -> find_place (mkS al h) p = Ret l -> find_place (mkS al h1) p = Ret l.
Proof. intros H1 H2. unfold find_place. cbn [s_alive s_mem]. destruct (is_alive _ _); [|discriminate]. now apply locate_ext. Qed.

(** only an element of an array lies in its block *)
Lemma block_child al h e A p q t u a sl v0 a0 aq sq : invA al h e A -> eget e p = Found t -> eget e q = Found u -> walk h root (At (fst p)) (snd p) = Ret (a, sl) -> load h (a, sl) = Ret v0 -> v_hold v0 = HPtr a0 -> kind_of t = KArr ->
  walk h root (At (fst q)) (snd q) = Ret (aq, sq) -> aq = a0 -> prefix (full p) (full q) && (length (full q) =? S (length (full p)))%nat = true.
Proof.
  intros Hi Ep Eq Wp Lp Hh Hk Wq ->. pose proof (eget_tget _ _ _ Ep) as Tp. pose proof (eget_tget _ _ _ Eq) as Tq. destruct (at_place _ _ _ _ _ _ Hi Ep) as (a' & sl' & b & v0' & A0 & Ar & _ & Wp' & Hc & Hs & Hl & Ho & Hcnt & _).
  rewrite Wp in Wp'. injection Wp' as <- <-. rewrite Lp in Hl. injection Hl as <-.
  assert (Ha0 : 0 < cnt A0 a0). { destruct t; try discriminate. inversion Ho; subst. cbn [v_hold] in Hh. injection Hh as ->. rewrite cnt_cons, cnt_one. lia. }
  destruct (prefix (full p) (full q)) eqn:P.
  2:{ exfalso. destruct Hi as (_ & _ & Hor & Hnr). pose proof (apart (snd q) (At (fst q)) (snd p) (At (fst p)) h root (whole e) A u t a0 sq a sl v0 A0 Hor Hnr Tq Wq Tp Wp Lp Ho) as Hap. unfold full in *. rewrite P in Hap. specialize (Hap ltac:(discriminate)). lia. }
  apply prefix_split in P as (r & E). assert (Er : snd q = snd p ++ r /\ fst q = fst p). { unfold full in E. cbn [app] in E. injection E as E1 E2. auto. } destruct Er as [Er Ef].
  destruct r as [|s r].
  { exfalso. rewrite Er, Ef, app_nil_r, Wp in Wq. injection Wq as -> ->. assert (Hap : cnt A0 a0 = 0). { destruct Hi as (_ & _ & Hor & Hnr). apply (apart (snd p) (At (fst p)) (snd p) (At (fst p)) h root (whole e) A t t a0 sq a0 sq v0 A0); auto. } lia. }
  rewrite E, app_length. cbn [length andb]. destruct r as [|s' r]; [apply Nat.eqb_eq; cbn; lia|]. exfalso.
  rewrite Er, Ef, (walk_app _ _ _ _ _ _ _ Wp), Lp in Wq. cbn [bind] in Wq. rewrite E, tget_app, Tp in Tq. cbn [tget] in Tq. destruct (child s t) as [tc| |] eqn:Ec; try discriminate.
  destruct (owns_child _ _ _ _ _ _ Ho Ec) as (a1 & b1 & vc & B1 & Ac & B2 & Hp1 & Hc1 & Hs1 & Hoc & -> & He & _). rewrite Hh in Hp1. injection Hp1 as <-. unfold walk in Wq. rewrite He in Wq. cbn [bind locate] in Wq. rewrite (load_ok _ _ _ _ _ Hc1 Hs1) in Wq. cbn [bind] in Wq.
  assert (Hnac : forall x, cnt [a0] x + cnt Ac x <= 1). { intros x. destruct Hi as (_ & _ & _ & Hnr). specialize (Hnr x). rewrite Hcnt, (cnt_cons a0 (B1 ++ Ac ++ B2)), !cnt_app in Hnr. lia. }
  destruct (focus r s' h vc tc Ac u Hoc ltac:(intros x; specialize (Hnac x); lia) Tq) as (a2 & sl2 & b2 & v2 & A2 & Ar2 & W2 & _ & _ & _ & Hcnt2 & Har2 & _). unfold walk in W2. rewrite W2 in Wq. injection Wq as -> ->.
  specialize (Hnac a0). rewrite cnt_one in Hnac. rewrite Hcnt2 in Hnac. lia.
Qed.

Lemma sim_push al h e A p q : invA al h e A -> sim (mkS al h) (Push p q) (astep e (Push p q)).
Proof.
  intros Hi. cbn [astep_of]. destruct (eget e q) as [u|y|] eqn:Eq; [|cbn [sim step_op]; now rewrite (find_missing _ _ _ _ _ _ Hi Eq)|exact I].
  destruct (at_place _ _ _ _ _ _ Hi Eq) as (aq & sq & bq & vq & Aq & Aqr & Hq & Wq & Hcq & Hsq & Hlq & Hoq & Hcntq & _).
  destruct (eget e p) as [t|y|] eqn:Ep; [|cbn [sim step_op]; rewrite Hq; cbn [bind]; now rewrite (find_missing _ _ _ _ _ _ Hi Ep)|exact I].
  destruct t as [| | | |l|]; try exact I. cbn [negb andb]. destruct (prefix (full q) (full p)) eqn:P1; [exact I|]. cbn [orb]. destruct (prefix (full p) (full q) && _) eqn:P2; [exact I|].
  destruct (at_place _ _ _ _ _ _ Hi Ep) as (a & sl & b & v0 & A0 & Ar & Hp & Wp & Hc & Hs & Hl & Ho & Hcnt & Har & _ & _ & Hr). cbn [sim step_op s_mem s_alive]. rewrite Hq. cbn [bind]. rewrite Hp. cbn [bind]. rewrite Hl. cbn [bind].
  assert (Hn : forall y, cnt A0 y + cnt Ar y <= 1). { intros y. rewrite <- Hcnt. apply Hi. }
  inversion Ho as [| | | |a0 vs ? A1 Hc0 Hvs|]; subst. cbn [v_hold deref]. rewrite (cell_live _ _ _ Hc0). cbn [bind fst].
  destruct (Nat.eqb_spec aq a0) as [Ea|_]. { exfalso. rewrite (block_child al h e A p q _ _ _ _ _ _ _ _ Hi Ep Eq Wp Hl (eq_refl : v_hold (mkV KArr (HPtr a0)) = HPtr a0) (eq_refl : kind_of (TArr l) = KArr) Wq Ea) in P2. discriminate. }
  set (h1 := set_block h a0 (BArr (vs ++ [mkV KUndef HGarbage]))). set (e1 := eset e p (TArr (l ++ [TUndef]))).
  destruct (array_set h a0 vs l A1 Ar (vs ++ [mkV KUndef HGarbage]) (l ++ [TUndef]) (A1 ++ []) Hc0 Hvs Hn) as (H1 & H2 & H3).
  { apply owns_list_app; auto. apply (OL_cons _ _ _ [] _ _ []); constructor. } { intros y. rewrite app_nil_r. lia. }
  destruct (Hr _ _ _ H2 H1 H3) as (A' & Hi' & _). fold h1 e1 in Hi'.
  destruct (grow_live h a0 (BArr vs) (BArr (vs ++ [mkV KUndef HGarbage])) Hc0) as [G1 G2]. { intros [n|k] v; cbn [slot]; [|discriminate]. intros E. rewrite nth_error_app1; auto. apply nth_error_Some. congruence. } { rewrite app_length. lia. }
  destruct (child_assign al h1 e1 A' p q (At (length vs)) TUndef (TArr (l ++ [TUndef])) u (a, sl) (mkV KArr (HPtr a0)) a0 (aq, sq)) as (h' & E & Hfin); auto.
  - eapply eget_same; eauto.
  - cbn [child]. rewrite (owns_list_length _ _ _ _ Hvs), nth_mid. reflexivity.
  - apply (eget_grow _ _ _ _ _ _ Ep Eq P1). intros [n|k] c; cbn [child]; [|discriminate]. destruct (nth_error l n) as [c0|] eqn:En; [|discriminate]. rewrite nth_error_app1 by (apply nth_error_Some; congruence). now rewrite En.
  - congruence.
  - eapply find_grow; eauto.
  - eapply find_grow; eauto.
  - fold h1. rewrite E. cbn [bind]. eexists. split; [reflexivity|]. cbn [set_child] in Hfin. rewrite (owns_list_length _ _ _ _ Hvs), set_nth_split in Hfin. unfold e1 in Hfin. rewrite (eset_twice _ _ _ _ _ Ep) in Hfin. exact Hfin.
Qed.

Lemma sim_put al h e A p k q : invA al h e A -> sim (mkS al h) (Put p k q) (astep e (Put p k q)).
Proof.
  intros Hi. cbn [astep_of]. destruct (eget e q) as [u|y|] eqn:Eq; [|cbn [sim step_op]; now rewrite (find_missing _ _ _ _ _ _ Hi Eq)|exact I].
  destruct (at_place _ _ _ _ _ _ Hi Eq) as (aq & sq & bq & vq & Aq & Aqr & Hq & Wq & Hcq & Hsq & Hlq & Hoq & Hcntq & _).
  destruct (eget e p) as [t|y|] eqn:Ep; [|cbn [sim step_op]; rewrite Hq; cbn [bind]; now rewrite (find_missing _ _ _ _ _ _ Hi Ep)|exact I].
  destruct t as [| | | | |mt]; try exact I. cbn [negb andb]. destruct (prefix (full q) (full p) && _) eqn:P1; [exact I|].
  destruct (at_place _ _ _ _ _ _ Hi Ep) as (a & sl & b & v0 & A0 & Ar & Hp & Wp & Hc & Hs & Hl & Ho & Hcnt & Har & _ & _ & Hr). cbn [sim step_op s_mem s_alive]. rewrite Hq. cbn [bind]. rewrite Hp. cbn [bind]. rewrite Hl. cbn [bind].
  assert (Hn : forall y, cnt A0 y + cnt Ar y <= 1). { intros y. rewrite <- Hcnt. apply Hi. }
  inversion Ho as [| | | | |a0 ms ? A1 Hc0 Hf Hnd Hms]; subst. cbn [v_hold deref]. rewrite (cell_live _ _ _ Hc0). cbn [bind fst]. destruct (assoc k mt) as [c|] eqn:Ek.
  - destruct (obj_split _ _ _ _ _ _ Hf Hms Ek) as (ms1 & vc & ms2 & mt1 & mt2 & B1 & Ac & B2 & -> & -> & K1 & K2 & _). rewrite (assoc_mid k vc) by auto. rewrite (set_block_id _ _ _ Hc0).
    destruct (child_assign al h e A p q (Member k) c (TObj (mt1 ++ (k, c) :: mt2)) u (a, sl) (mkV KObj (HPtr a0)) a0 (aq, sq)) as (h' & E & Hfin); auto.
    + cbn [child]. now rewrite Ek.
    + intros P. rewrite P in P1. cbn [andb] in P1. destruct (kind_eqb_spec (kind_of c) (kind_of u)); [auto|discriminate].
    + rewrite E. cbn [bind]. eexists. split; [reflexivity|]. exact Hfin.
  - rewrite andb_true_r in P1. assert (Ek' : assoc k ms = None). { apply assoc_none. rewrite Hf. now apply assoc_none. } rewrite Ek'. assert (Hk : ~ In k (map fst ms)) by now apply assoc_none. assert (Hkt : ~ In k (map fst mt)) by now apply assoc_none.
    set (h1 := set_block h a0 (BObj (ms ++ [(k, mkV KUndef HNull)]))). set (e1 := eset e p (TObj (mt ++ [(k, TUndef)]))).
    assert (Ha1 : cnt A1 a0 = 0 /\ cnt Ar a0 = 0). { specialize (Hn a0). rewrite (cnt_cons a0 A1), cnt_one in Hn. lia. }
    destruct (Hr h1 (TObj (mt ++ [(k, TUndef)])) (a0 :: A1)) as (A' & Hi' & _); auto.
    { intros y Hy. apply set_block_other. intros <-. lia. }
    { apply (O_obj h1 a0 (ms ++ [(k, mkV KUndef HNull)])).
      - eapply cell_set; eauto.
      - rewrite !map_app, Hf. reflexivity.
      - rewrite map_app. cbn [map fst]. apply NoDup_Add with (a := k) (l := map fst ms); [|auto]. rewrite <- (app_nil_r (map fst ms)) at 1. apply Add_app.
      - rewrite !map_app. cbn [map snd]. rewrite <- (app_nil_r A1). apply owns_list_app; [|apply (OL_cons _ _ _ [] _ _ []); constructor].
        apply (frame_list h); auto. intros y Hy. apply set_block_other. intros <-. apply cnt_in in Hy. lia. }
    fold e1 in Hi'.
    destruct (grow_live h a0 (BObj ms) (BObj (ms ++ [(k, mkV KUndef HNull)])) Hc0) as [G1 G2]; [|exact I|]. { intros [n|j] v; cbn [slot]; [discriminate|]. intros E. apply assoc_split in E as (m1 & m2 & -> & Hj). rewrite <- app_assoc. cbn [app]. now apply assoc_mid. }
    destruct (child_assign al h1 e1 A' p q (Member k) TUndef (TObj (mt ++ [(k, TUndef)])) u (a, sl) (mkV KObj (HPtr a0)) a0 (aq, sq)) as (h' & E & Hfin); auto.
    + eapply eget_same; eauto.
    + cbn [child]. now rewrite assoc_mid.
    + apply (eget_grow _ _ _ _ _ _ Ep Eq P1). intros [n|j] c; cbn [child]; [discriminate|]. destruct (assoc j mt) as [c0|] eqn:En; [|discriminate]. apply assoc_split in En as (m1 & m2 & -> & Hj). rewrite <- app_assoc. cbn [app]. now rewrite assoc_mid.
    + congruence.
    + eapply find_grow; eauto.
    + eapply find_grow; eauto.
    + fold h1. rewrite E. cbn [bind]. eexists. split; [reflexivity|]. cbn [set_child] in Hfin. rewrite assoc_set_mid in Hfin by auto. unfold e1 in Hfin. rewrite (eset_twice _ _ _ _ _ Ep) in Hfin. rewrite assoc_set_new by auto. exact Hfin.
Qed.

(** ** Programs *)
Theorem step_sim s e o : inv s e -> sim s o (astep e o).
Proof.
  destruct s as [al h]. intros (A & Hi). cbn [s_alive s_mem] in Hi. destruct o.
  - eapply sim_new; eauto.
  - eapply sim_copy; eauto.
  - eapply sim_move; eauto.
  - eapply sim_assign; eauto.
  - eapply sim_destroy; eauto.
  - eapply sim_setint; eauto.
  - eapply sim_setstr; eauto.
  - eapply sim_push; eauto.
  - eapply sim_pop; eauto.
  - eapply sim_resize; eauto.
  - eapply sim_clear; eauto.
  - eapply sim_put; eauto.
  - eapply sim_erase; eauto.
  - exact I.
Qed.
Lemma throw_same e o e' x : astep e o = Some (e', Some x) -> e' = e.
Proof.
  destruct o; cbn [astep_of]; intros H; repeat match type of H with context [match ?d with _ => _ end] => destruct d end; congruence.
Qed.
Theorem run_sim l : forall s e e' log, inv s e -> arun e l = Some (e', log) -> exists s', run s l = Ret (s', log) /\ inv s' e'.
Proof.
  induction l as [|o l IH]; intros s e e' log Hi H; cbn [arun_of run] in *.
  - injection H as <- <-. eauto.
  - pose proof (step_sim s e o Hi) as Hs. destruct (astep e o) as [[e1 x]|] eqn:Ea; [|discriminate]. destruct (arun e1 l) as [[e2 xs]|] eqn:Er; [|discriminate]. injection H as <- <-. destruct x as [x|]; cbn [sim] in Hs.
    + rewrite Hs. apply throw_same in Ea. subst e1. destruct (IH _ _ _ _ Hi Er) as (s' & E & Hi'). rewrite E. cbn [bind]. eauto.
    + destruct Hs as (s1 & E1 & Hi1). rewrite E1. destruct (IH _ _ _ _ Hi1 Er) as (s' & E & Hi'). rewrite E. cbn [bind]. eauto.
Qed.
Lemma inv0 n objs : inv (state0 n objs) (env0 n).
Proof.
  exists [0]. unfold state0, env0. cbn [s_alive s_mem]. split; [reflexivity|]. split; [cbn [e_alive e_vars]; now rewrite !repeat_length|]. split.
  - unfold whole. cbn [e_vars]. apply (O_arr _ 0 (repeat (mkV KUndef HNull) n) (repeat TUndef n) []); [reflexivity|]. apply owns_undefs.
  - intros x. destruct (Nat.eq_dec 0 x) as [<-|E]; [rewrite cnt_one; lia|rewrite (cnt_other _ _ E); lia].
Qed.
Lemma content_ok s e x t : inv s e -> eget e (x, []) = Found t -> content s x = Ret t.
Proof.
  destruct s as [al h]. intros (A & Hi) Eg. cbn [s_alive s_mem] in Hi. destruct (at_place _ _ _ _ _ _ Hi Eg) as (a & sl & b & v0 & A0 & Ar & Hp & _ & Hc & Hs & Hl & Ho & Hcnt & _). unfold content. rewrite Hp. cbn [bind s_mem]. rewrite Hl. cbn [bind].
  apply (read_ok _ _ _ _ A0); auto. unfold fuel_of. assert (Hn : forall y, cnt A0 y <= 1). { intros y. destruct Hi as (_ & _ & _ & Hn). specialize (Hn y). rewrite Hcnt in Hn. lia. } pose proof (owned_fits _ _ _ _ Ho Hn). lia.
Qed.
Lemma env_alive s e x : inv s e -> is_alive (e_alive e) x = true -> exists t, nth_error (e_vars e) x = Some t /\ eget e (x, []) = Found t.
Proof.
  intros (A & _ & Hlen & _) Ea. assert (Hx : x < length (e_vars e)). { rewrite <- Hlen. destruct (lt_dec x (length (e_alive e))); auto. unfold is_alive in Ea. rewrite nth_overflow in Ea by lia. discriminate. }
  destruct (nth_error (e_vars e) x) as [t|] eqn:En; [|apply nth_error_None in En; lia]. exists t. split; auto. unfold eget, full, whole. cbn [fst snd tget child]. now rewrite Ea, En.
Qed.
