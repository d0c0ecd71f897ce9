(** Vectors with their memory: lemmas behind VectorHeapProps.v. *)
From Verif Require Import Base VectorSpec VectorModel VectorHeapSpec VectorHeapModel VectorProof.
From Coq Require Import List NArith ZArith Bool Lia Arith.
Import ListNotations.
Local Open Scope N_scope.

Local Ltac splits := repeat match goal with |- _ /\ _ => split end.

Section Sim.
  Context {A : Type}.
  Variables zero dflt : A.
  Variable esz : N.
  Variables calloc_ok realloc_ok : nat -> N -> bool.
  Notation mem := (mem A).

  Definition alive (b : option (list (option A))) : bool := match b with Some _ => true | None => false end.
  Definition nlive (m : mem) : nat := length (filter alive m).
  Definition own1 (m : mem) (p : option nat) : nat := match view m p with Block _ => 1 | _ => 0 end.
  Definition abs (m : mem) (v : hvec) : vec A := mkV (view m (hdata v)) (hsize v) (halloc v).
  Definition wf (m : mem) (p : option nat) : Prop := forall a, p = Some a -> (a < length m)%nat.

  (** what a call may do to the memory while the pointer of its vector goes from [p] to [p'], [x]
      objects being left without owner *)
  Record moved (m : mem) (p : option nat) (m' : mem) (p' : option nat) (x : nat) : Prop := {
    mv_len : (length m <= length m')%nat;
    mv_frame : forall b, (b < length m)%nat -> p <> Some b -> nth_error m' b = nth_error m b;
    mv_ptr : p' = p \/ p' = None \/ (exists a, p' = Some a /\ (length m <= a < length m')%nat);
    mv_wf : wf m' p';
    mv_count : (nlive m' + own1 m p = nlive m + own1 m' p' + x)%nat }.

  Lemma moved_refl (m : mem) p : wf m p -> moved m p m p 0.
  Proof. intros H. split; auto; lia. Qed.

  Lemma moved_trans (m : mem) p m1 p1 m2 p2 x y : moved m p m1 p1 x -> moved m1 p1 m2 p2 y -> moved m p m2 p2 (x + y).
  Proof.
    intros [L1 F1 P1 W1 C1] [L2 F2 P2 W2 C2]. split; auto; [lia| |  |lia].
    - intros b Hb Hp. rewrite F2; [apply F1; auto|lia|]. destruct P1 as [->|[->|(a & -> & Ha)]]; auto; [discriminate|].
      intros [= ->]. lia.
    - destruct P2 as [->|[->|(a & -> & Ha)]]; auto.
      + destruct P1 as [->|[->|(a & -> & Ha)]]; auto. right. right. exists a. split; auto. lia.
      + right. right. exists a. split; auto. lia.
  Qed.

  Lemma moved_view (m : mem) p m' p' x q : moved m p m' p' x -> wf m q -> q <> p -> view m' q = view m q.
  Proof.
    intros HM Hq Hne. destruct q as [a|]; auto. cbn. rewrite (mv_frame _ _ _ _ _ HM); auto.
  Qed.

  Lemma nlive_app (m : mem) m' : nlive (m ++ m') = (nlive m + nlive m')%nat.
  Proof. unfold nlive. rewrite filter_app, app_length. auto. Qed.

  Lemma nlive_set (m : mem) a b b' : nth_error m a = Some b ->
    (nlive (set_nth m a b') + (if alive b then 1 else 0) = nlive m + if alive b' then 1 else 0)%nat.
  Proof.
    unfold nlive. revert a. induction m as [|x m IH]; intros [|a] H; cbn in H; try discriminate.
    - injection H as ->. cbn. destruct (alive b), (alive b'); cbn; lia.
    - specialize (IH _ H). cbn. destruct (alive x); cbn; lia.
  Qed.

  Lemma view_block (m : mem) p cs : view m p = Block cs -> exists a, p = Some a /\ nth_error m a = Some (Some cs) /\ (a < length m)%nat.
  Proof.
    destruct p as [a|]; cbn; [|discriminate]. destruct (nth_error m a) as [[c|]|] eqn:E; try discriminate.
    intros [= ->]. exists a. splits; auto. apply nth_error_Some. congruence.
  Qed.

  (** [q] is what [vwrite], [vfill], [vmove] make of [p] *)
  Definition rewritten (p q : ptr A) : Prop := q = p \/ exists cs cs', p = Block cs /\ q = Block cs'.

  Lemma vwrite_rw (p q : ptr A) k xs : vwrite p k xs = Ret q -> rewritten p q.
  Proof. unfold vwrite. destruct xs, p; try destruct (_ <=? _); intros [= <-]; unfold rewritten; eauto. Qed.
  Lemma vfill_rw (p q : ptr A) k n a : vfill p k n a = Ret q -> rewritten p q.
  Proof. unfold vfill. destruct (_ =? _), p; try destruct (_ <=? _); intros [= <-]; unfold rewritten; eauto. Qed.
  Lemma vmove_rw (p q : ptr A) s d n : vmove p s d n = Ret q -> rewritten p q.
  Proof. unfold vmove. destruct (_ =? _), p; try destruct (_ && _); intros [= <-]; unfold rewritten; eauto. Qed.

  Lemma store_ok (m : mem) p q : wf m p -> rewritten (view m p) q ->
    moved m p (store m p q) p 0 /\ view (store m p q) p = q.
  Proof.
    intros Hw Hr.
    assert (HB : forall cs cs', view m p = Block cs -> q = Block cs' -> moved m p (store m p q) p 0 /\ view (store m p q) p = q).
    { intros cs cs' E ->. destruct (view_block _ _ _ E) as (a & -> & Ha & Hl). cbn [store].
      assert (Hv : view (set_nth m a (Some cs')) (Some a) = Block cs').
      { cbn. rewrite set_nth_nth, Nat.eqb_refl. destruct (Nat.ltb_spec a (length m)); [auto|lia]. }
      split; auto. split.
      - rewrite set_nth_length. lia.
      - intros b Hb Hp. rewrite set_nth_nth. destruct (Nat.eqb_spec a b); [congruence|auto].
      - auto.
      - intros x [= <-]. rewrite set_nth_length. auto.
      - pose proof (nlive_set _ _ _ (Some cs') Ha) as HC. cbn [alive] in HC. unfold own1. rewrite Hv, E. lia. }
    destruct Hr as [->|(cs & cs' & E & E')]; [|eauto].
    destruct (view m p) as [| |cs] eqn:E; [| |eapply HB; eauto].
    - assert (Hs : store m p Null = m) by (destruct p; auto). rewrite Hs. split; auto. apply moved_refl; auto.
    - assert (Hs : store m p Freed = m) by (destruct p; auto). rewrite Hs. split; auto. apply moved_refl; auto.
  Qed.

  Lemma release_ok (m : mem) p cs : view m p = Block cs -> wf m p /\ nlive m = S (nlive (release m p)) /\
    length (release m p) = length m /\ view (release m p) p = Freed /\
    (forall b, p <> Some b -> nth_error (release m p) b = nth_error m b).
  Proof.
    intros E. destruct (view_block _ _ _ E) as (a & -> & Ha & Hl). cbn [release]. splits.
    - intros x [= <-]. auto.
    - pose proof (nlive_set _ _ _ None Ha) as HC. cbn [alive] in HC. lia.
    - apply set_nth_length.
    - cbn. rewrite set_nth_nth, Nat.eqb_refl. destruct (Nat.ltb_spec a (length m)); auto.
    - intros b Hb. rewrite set_nth_nth. destruct (Nat.eqb_spec a b); [congruence|auto].
  Qed.

  Lemma obtain_view (m : mem) (cs : list (option A)) : view (m ++ [Some cs]) (Some (length m)) = Block cs.
  Proof. cbn. rewrite nth_error_app2, Nat.sub_diag; auto. Qed.

  (** the code with memory does what the code of VectorModel.v does *)
  Definition sim (m : mem) (p : option nat) (x : nat) (Q : hvec -> mem -> Prop)
      (r : outcome (hres (A:=A))) (s : outcome (res (A:=A))) : Prop :=
    match s with
    | Ret (v', c', Some e) => exists hv m', r = Ret (hv, m', c', Some e) /\ abs m' hv = v' /\ moved m p m' (hdata hv) 0
    | Ret (v', c', None) => exists hv m', r = Ret (hv, m', c', None) /\ abs m' hv = v' /\ moved m p m' (hdata hv) x /\ Q hv m'
    | UB _ => exists u, r = UB u
    | Diverge => r = Diverge
    | _ => False
    end.

  Lemma sim_andthen (m : mem) p x (P Q : hvec -> mem -> Prop) r s hk k : sim m p 0 P r s ->
    (forall hv m1 c, moved m p m1 (hdata hv) 0 -> P hv m1 -> sim m1 (hdata hv) x Q (hk hv m1 c) (k (abs m1 hv) c)) ->
    sim m p x Q (h_andthen r hk) (andthen s k).
  Proof.
    intros H1 H2. unfold h_andthen, andthen. destruct s as [[[v c] [e|]]|e|u| |z]; cbn [sim] in H1; cbn [bind]; try contradiction.
    - destruct H1 as (hv & m' & -> & Ha & HM). cbn [bind sim]. eexists _, _. eauto.
    - destruct H1 as (hv & m' & -> & Ha & HM & HP). cbn [bind].
      subst v. specialize (H2 hv m' c HM HP).
      destruct (k (abs m' hv) c) as [[[v2 c2] [e2|]]|e2|u2| |z2]; cbn [sim] in *; auto.
      + destruct H2 as (hv2 & m2 & -> & Ha2 & HM2). eexists _, _. split; [reflexivity|]. split; auto.
        exact (moved_trans _ _ _ _ _ _ 0 0 HM HM2).
      + destruct H2 as (hv2 & m2 & -> & Ha2 & HM2 & HQ). eexists _, _. split; [reflexivity|]. splits; auto.
        exact (moved_trans _ _ _ _ _ _ 0 x HM HM2).
    - destruct H1 as (w & ->). cbn. eauto.
    - subst r. reflexivity.
  Qed.

  (** a write into the block of the vector, then the rest *)
  Lemma sim_store (m : mem) p x Q (o : outcome (ptr A)) hk k : wf m p ->
    (forall q, o = Ret q -> rewritten (view m p) q) ->
    (forall m1, moved m p m1 p 0 -> sim m1 p x Q (hk m1) (k (view m1 p))) ->
    (forall u z, o <> Throw u /\ o <> Exit z /\ o <> Diverge) ->
    sim m p x Q (m1 <- (q <- o ;; Ret (store m p q)) ;; hk m1) (q <- o ;; k q).
  Proof.
    intros Hw Hr Hk Ho. destruct o as [q|e|u| |z]; cbn [bind].
    - destruct (store_ok m p q Hw (Hr q eq_refl)) as [HM HV]. specialize (Hk _ HM). rewrite HV in Hk.
      unfold sim in *. destruct (k q) as [[[v2 c2] [e2|]]|e2|u2| |z2]; auto.
      + destruct Hk as (hv2 & m2 & -> & Ha2 & HM2). eexists _, _. split; [reflexivity|]. split; auto.
        exact (moved_trans _ _ _ _ _ _ 0 0 HM HM2).
      + destruct Hk as (hv2 & m2 & -> & Ha2 & HM2 & HQ). eexists _, _. split; [reflexivity|]. splits; auto.
        exact (moved_trans _ _ _ _ _ _ 0 x HM HM2).
    - destruct (Ho e 0%Z) as (H & _). congruence.
    - cbn. eauto.
    - destruct (Ho BadAllocNoMemory 0%Z) as (_ & _ & H). congruence.
    - destruct (Ho BadAllocNoMemory z) as (_ & H & _). congruence.
  Qed.

  Lemma vwrite_kind (p : ptr A) k xs u z : vwrite p k xs <> Throw u /\ vwrite p k xs <> Exit z /\ vwrite p k xs <> Diverge.
  Proof. unfold vwrite. destruct xs, p; try destruct (_ <=? _); splits; discriminate. Qed.
  Lemma vfill_kind (p : ptr A) k n a u z : vfill p k n a <> Throw u /\ vfill p k n a <> Exit z /\ vfill p k n a <> Diverge.
  Proof. unfold vfill. destruct (_ =? _), p; try destruct (_ <=? _); splits; discriminate. Qed.
  Lemma vmove_kind (p : ptr A) s d n u z : vmove p s d n <> Throw u /\ vmove p s d n <> Exit z /\ vmove p s d n <> Diverge.
  Proof. unfold vmove. destruct (_ =? _), p; try destruct (_ && _); splits; discriminate. Qed.
  Lemma vread_kind (p : ptr A) k : (exists a, vread p k = Ret a) \/ (exists u, vread p k = UB u).
  Proof. unfold vread. destruct p; eauto. destruct (_ <? _); eauto. destruct (nth_error _ _) as [[]|]; eauto. Qed.

  Lemma sim_ret (m : mem) v x (Q : hvec -> mem -> Prop) c w : moved m (hdata v) m (hdata v) x -> abs m v = w -> Q v m -> sim m (hdata v) x Q (Ret (v, m, c, None)) (Ret (w, c, None)).
  Proof. intros HM Ha HQ. cbn. eexists _, _. splits; eauto. Qed.

  (** where the reference taken at address [p0] points after a reserve(n) of a vector with [al] cells *)
  Definition argok (p0 : option nat) (al n : N) (v : hvec) (m : mem) : Prop :=
    wf m p0 /\ ((n <= al /\ hdata v = p0) \/ (al < n /\ (p0 = None \/ (hdata v <> p0 /\ view m p0 = Freed)))).

  Lemma argok_moved p0 al n v (m : mem) v' m' x : argok p0 al n v m -> moved m (hdata v) m' (hdata v') x -> hdata v' = hdata v ->
    argok p0 al n v' m'.
  Proof.
    intros [Hw Ha] HM He. split.
    - intros a H. pose proof (mv_len _ _ _ _ _ HM). specialize (Hw a H). lia.
    - rewrite He. destruct Ha as [Ha|(Hl & [Hn|[Hd Hf]])]; auto. right. split; auto. right. split; auto.
      rewrite (moved_view _ _ _ _ _ p0 HM Hw); auto.
  Qed.

  Lemma sim_arg (m : mem) p x Q p0 n v0 v a (y : varg A) hk k : argok p0 (valloc v0) n v m -> a = abs m v ->
    (forall b, sim m p x Q (hk b) (k b)) ->
    sim m p x Q (b <- h_arg m p0 y ;; hk b) (b <- use_arg v0 n a y ;; k b).
  Proof.
    intros [Hw Ha] -> Hk. destruct y as [b|i]; cbn [h_arg use_arg bind]; auto.
    destruct (N.leb_spec n (valloc v0)) as [Hle|Hgt].
    - destruct Ha as [[_ <-]|[Hl _]]; [|lia]. unfold hread. cbn [abs vdata].
      destruct (vread_kind (view m (hdata v)) i) as [[b ->]|[u ->]]; cbn [bind]; auto. cbn. eauto.
    - destruct Ha as [[Hl _]|[_ [->|[_ Hf]]]]; [lia| |].
      + cbn. eauto.
      + unfold hread. rewrite Hf. cbn. eauto.
  Qed.

  Lemma sim_conseq (m : mem) p x (P Q : hvec -> mem -> Prop) r s : sim m p x P r s -> (forall v m', moved m p m' (hdata v) x -> P v m' -> Q v m') -> sim m p x Q r s.
  Proof.
    intros H HPQ. unfold sim in *. destruct s as [[[v c] [e|]]|e|u| |z]; auto.
    destruct H as (hv & m' & -> & Ha & HM & HP). eexists _, _. splits; eauto.
  Qed.

  Lemma grow_kind f t n : (exists a, grow f t n = Ret a) \/ grow f t n = Diverge.
  Proof. revert t. induction f as [|f IH]; intros t; cbn [grow]; destruct (_ && _); eauto. Qed.

  Lemma wf_app (m : mem) b p : wf m p -> wf (m ++ b) p.
  Proof. intros H a E. specialize (H a E). rewrite app_length. lia. Qed.

  Lemma reserve_sim v (m : mem) c n : wf m (hdata v) ->
    sim m (hdata v) 0 (fun v' m' => argok (hdata v) (halloc v) n v' m' /\ hsize v' = hsize v)
      (h_reserve esz realloc_ok v m c n) (reserve esz realloc_ok (abs m v) c n).
  Proof.
    intros Hw. unfold h_reserve, reserve. cbn [abs valloc vdata vsize].
    destruct (N.leb_spec n (halloc v)) as [Hle|Hgt].
    { apply sim_ret; auto. apply moved_refl; auto. split; auto. split; auto. }
    destruct (grow_kind 200 (halloc v) n) as [[t ->]| ->]; cbn [bind]; [|reflexivity].
    set (sz := u64 (esz * t)).
    destruct (view m (hdata v)) as [| |cs] eqn:E.
    - destruct (realloc_ok c sz).
      + unfold obtain. cbn [sim]. eexists _, _. split; [reflexivity|]. unfold abs; cbn [hdata hsize halloc].
        rewrite obtain_view. splits; auto.
        * split.
          -- rewrite app_length. lia.
          -- intros b Hb _. rewrite nth_error_app1; auto.
          -- right. right. eexists. split; [reflexivity|]. rewrite app_length. cbn. lia.
          -- intros a [= <-]. rewrite app_length. cbn. lia.
          -- unfold own1. rewrite obtain_view, E, nlive_app. cbn. lia.
        * split; [apply wf_app; auto|]. right. split; auto.
          destruct (hdata v) as [a|]; auto. cbn in E. destruct (nth_error m a) as [[|]|]; discriminate.
      + cbn [sim]. eexists _, _. split; [reflexivity|]. split; [unfold abs; rewrite E; reflexivity|]. apply moved_refl; auto.
    - cbn. eauto.
    - destruct (release_ok _ _ _ E) as (_ & HL & Hlen & HF & Hfr).
      destruct (sz =? 0).
      + cbn [sim]. eexists _, _. split; [reflexivity|]. split; [unfold abs; rewrite HF; reflexivity|].
        split; auto; try lia.
        * intros a Ha. rewrite Hlen. auto.
        * unfold own1. rewrite HF, E. lia.
      + destruct (realloc_ok c sz).
        * unfold obtain. cbn [sim]. eexists _, _. split; [reflexivity|]. unfold abs; cbn [hdata hsize halloc].
          rewrite obtain_view. splits; auto.
          -- split.
             ++ rewrite app_length. lia.
             ++ intros b Hb Hp. rewrite nth_error_app1; [auto|lia].
             ++ right. right. eexists. split; [reflexivity|]. rewrite app_length. cbn. lia.
             ++ intros a [= <-]. rewrite app_length. cbn. lia.
             ++ unfold own1. rewrite obtain_view, E, nlive_app. cbn. lia.
          -- split; [apply wf_app; intros a Ha; rewrite Hlen; auto|]. right. split; auto. right. split.
             ++ intros Hx. cbn [hdata] in Hx. rewrite Hlen in Hx. rewrite <- Hx in Hw. specialize (Hw _ eq_refl). lia.
             ++ destruct (hdata v) as [a|] eqn:Ed; [|discriminate]. specialize (Hw a eq_refl).
                cbn [view] in *. rewrite nth_error_app1; [auto|lia].
        * cbn [sim]. eexists _, _. split; [reflexivity|]. split; [unfold abs; rewrite E; reflexivity|]. apply moved_refl; auto.
  Qed.

  Lemma resize_with_sim v (m : mem) c n y p0 : wf m (hdata v) -> (y = Val dflt \/ p0 = hdata v) ->
    sim m (hdata v) 0 (fun v' m' => argok (hdata v) (halloc v) n v' m' /\ hsize v' = n)
      (h_resize_with esz realloc_ok p0 v m c n y) (resize_with esz realloc_ok (abs m v) c n y).
  Proof.
    intros Hw Hy. unfold h_resize_with, resize_with. eapply sim_andthen; [apply reserve_sim; auto|].
    intros v1 m1 c1 HM [HA Hs]. pose proof (mv_wf _ _ _ _ _ HM) as Hw1. cbn [abs vsize vdata valloc].
    destruct (hsize v1 <? n).
    - assert (HK : forall b, sim m1 (hdata v1) 0 (fun v' m' => argok (hdata v) (halloc v) n v' m' /\ hsize v' = n)
        (m0 <- hfill m1 (hdata v1) (hsize v1) (n - hsize v1) b ;; Ret (mkH (hdata v1) n (halloc v1), m0, c1, None))
        (p <- vfill (view m1 (hdata v1)) (hsize v1) (n - hsize v1) b ;; Ret (mkV p n (halloc v1), c1, None))).
      { intros b. unfold hfill. apply sim_store; auto.
        - intros q. apply vfill_rw.
        - intros m2 HM2. cbn [sim]. eexists _, _. split; [reflexivity|]. splits; auto.
          + apply moved_refl. apply (mv_wf _ _ _ _ _ HM2).
          + eapply argok_moved; [exact HA|exact HM2|auto].
        - intros u z. apply vfill_kind. }
      destruct Hy as [-> | ->]; [cbn [h_arg use_arg bind]; apply HK|].
      eapply sim_arg; [exact HA|reflexivity|exact HK].
    - apply (sim_ret m1 (mkH (hdata v1) n (halloc v1))); auto.
      + apply moved_refl; auto.
  Qed.

  Lemma resize_sim v (m : mem) c n : wf m (hdata v) ->
    sim m (hdata v) 0 (fun v' m' => argok (hdata v) (halloc v) n v' m' /\ hsize v' = n)
      (h_resize dflt esz realloc_ok v m c n) (resize dflt esz realloc_ok (abs m v) c n).
  Proof. intros Hw. unfold h_resize, resize. apply resize_with_sim; auto. Qed.

  Notation T := (fun (_ : hvec) (_ : mem) => True).

  Lemma assign_n_sim v (m : mem) c n y : wf m (hdata v) ->
    sim m (hdata v) 0 T (h_assign_n dflt esz realloc_ok v m c n y) (assign_n dflt esz realloc_ok (abs m v) c n y).
  Proof.
    intros Hw. unfold h_assign_n, assign_n. eapply sim_andthen; [apply resize_sim; auto|].
    intros v1 m1 c1 HM [HA Hs]. pose proof (mv_wf _ _ _ _ _ HM) as Hw1.
    destruct (n =? 0); [apply sim_ret; auto; apply moved_refl; auto|].
    eapply sim_arg; [exact HA|reflexivity|]. intros b. cbn [abs vsize vdata valloc]. unfold hfill. apply sim_store; auto.
    - intros q. apply vfill_rw.
    - intros m2 HM2. apply sim_ret; auto. apply moved_refl. apply (mv_wf _ _ _ _ _ HM2).
    - intros u z. apply vfill_kind.
  Qed.

  Lemma assign_list_sim v (m : mem) c l : wf m (hdata v) ->
    sim m (hdata v) 0 T (h_assign_list dflt esz realloc_ok v m c l) (assign_list dflt esz realloc_ok (abs m v) c l).
  Proof.
    intros Hw. unfold h_assign_list, assign_list. eapply sim_andthen; [apply resize_sim; auto|].
    intros v1 m1 c1 HM [HA Hs]. pose proof (mv_wf _ _ _ _ _ HM) as Hw1.
    cbn [abs vsize vdata valloc]. unfold hwrite. apply sim_store; auto.
    - intros q. apply vwrite_rw.
    - intros m2 HM2. apply sim_ret; auto. apply moved_refl. apply (mv_wf _ _ _ _ _ HM2).
    - intros u z. apply vwrite_kind.
  Qed.

  Lemma push_back_sim v (m : mem) c y : wf m (hdata v) ->
    sim m (hdata v) 0 T (h_push_back esz realloc_ok v m c y) (push_back esz realloc_ok (abs m v) c y).
  Proof.
    intros Hw. unfold h_push_back, push_back. eapply sim_andthen; [apply reserve_sim; auto|].
    intros v1 m1 c1 HM [HA Hs]. pose proof (mv_wf _ _ _ _ _ HM) as Hw1.
    eapply sim_arg; [exact HA|reflexivity|]. intros b. cbn [abs vsize vdata valloc]. unfold hwrite. apply sim_store; auto.
    - intros q. apply vwrite_rw.
    - intros m2 HM2. apply (sim_ret m2 (mkH (hdata v1) (u64 (hsize v1 + 1)) (halloc v1))); auto. apply moved_refl. apply (mv_wf _ _ _ _ _ HM2).
    - intros u z. apply vwrite_kind.
  Qed.

  Lemma emplace_back_sim v (m : mem) c b : wf m (hdata v) ->
    sim m (hdata v) 1 T (h_emplace_back esz realloc_ok v m c b) (push_back esz realloc_ok (abs m v) c (Val b)).
  Proof.
    intros Hw. unfold h_emplace_back, push_back. eapply sim_andthen; [apply reserve_sim; auto|].
    intros v1 m1 c1 HM [HA Hs]. pose proof (mv_wf _ _ _ _ _ HM) as Hw1. cbn [use_arg bind].
    unfold obtain. set (m2 := m1 ++ [Some [Some b]]).
    assert (Hr : hread m2 (Some (length m1)) 0 = Ret b).
    { unfold hread, m2. rewrite obtain_view. reflexivity. }
    rewrite Hr. cbn [bind abs vsize vdata valloc].
    assert (Hv : view m2 (hdata v1) = view m1 (hdata v1)).
    { destruct (hdata v1) as [a|] eqn:E; auto. cbn [view]. unfold m2. rewrite nth_error_app1; auto. }
    assert (HM2 : moved m1 (hdata v1) m2 (hdata v1) 1).
    { split; auto.
      - unfold m2. rewrite app_length. lia.
      - intros a Ha _. unfold m2. rewrite nth_error_app1; auto.
      - apply wf_app; auto.
      - unfold own1. rewrite Hv. unfold m2. rewrite nlive_app. cbn. lia. }
    rewrite <- Hv.
    assert (HS : sim m2 (hdata v1) 0 T
      (m3 <- hwrite m2 (hdata v1) (hsize v1) [b] ;; Ret (mkH (hdata v1) (u64 (hsize v1 + 1)) (halloc v1), m3, c1, None))
      (p <- vwrite (view m2 (hdata v1)) (hsize v1) [b] ;; Ret (mkV p (u64 (hsize v1 + 1)) (halloc v1), c1, None))).
    { unfold hwrite. apply sim_store; auto.
      - apply (mv_wf _ _ _ _ _ HM2).
      - intros q. apply vwrite_rw.
      - intros m3 HM3. apply (sim_ret m3 (mkH (hdata v1) (u64 (hsize v1 + 1)) (halloc v1))); auto. apply moved_refl. apply (mv_wf _ _ _ _ _ HM3).
      - intros u z. apply vwrite_kind. }
    destruct (vwrite (view m2 (hdata v1)) (hsize v1) [b]) as [q|e|u| |z]; cbn [bind sim] in *; auto.
    destruct HS as (hv & m3 & -> & Ha & HM3 & _). eexists _, _. splits; eauto.
    exact (moved_trans _ _ _ _ _ _ 1 0 HM2 HM3).
  Qed.

  Lemma insert_n_sim v (m : mem) c k n y : wf m (hdata v) ->
    sim m (hdata v) 0 T (h_insert_n dflt esz realloc_ok v m c k n y) (insert_n dflt esz realloc_ok (abs m v) c k n y).
  Proof.
    intros Hw. unfold h_insert_n, insert_n. cbn [abs vsize]. destruct (_ <? _).
    { cbn [sim]. eexists _, _. splits; eauto. apply moved_refl; auto. }
    eapply sim_andthen; [apply resize_sim; auto|].
    intros v1 m1 c1 HM [HA Hs]. pose proof (mv_wf _ _ _ _ _ HM) as Hw1. cbn [abs vsize vdata valloc].
    destruct (_ <? _); [cbn; eauto|]. unfold hmove. apply sim_store; auto.
    - intros q. apply vmove_rw.
    - intros m2 HM2. pose proof (mv_wf _ _ _ _ _ HM2) as Hw2.
      destruct (n =? 0); [apply sim_ret; auto; apply moved_refl; auto|].
      eapply sim_arg; [eapply argok_moved; [exact HA|exact HM2|reflexivity]|reflexivity|].
      intros b. unfold hfill. apply sim_store; auto.
      + intros q. apply vfill_rw.
      + intros m3 HM3. apply sim_ret; auto. apply moved_refl. apply (mv_wf _ _ _ _ _ HM3).
      + intros u z. apply vfill_kind.
    - intros u z. apply vmove_kind.
  Qed.

  Lemma insert_list_sim v (m : mem) c k l : wf m (hdata v) ->
    sim m (hdata v) 0 T (h_insert_list dflt esz realloc_ok v m c k l) (insert_list dflt esz realloc_ok (abs m v) c k l).
  Proof.
    intros Hw. unfold h_insert_list, insert_list. cbn [abs vsize]. destruct (_ <? _).
    { cbn [sim]. eexists _, _. splits; eauto. apply moved_refl; auto. }
    eapply sim_andthen; [apply resize_sim; auto|].
    intros v1 m1 c1 HM [HA Hs]. pose proof (mv_wf _ _ _ _ _ HM) as Hw1. cbn [abs vsize vdata valloc].
    destruct (_ <? _); [cbn; eauto|]. unfold hmove. apply sim_store; auto.
    - intros q. apply vmove_rw.
    - intros m2 HM2. pose proof (mv_wf _ _ _ _ _ HM2) as Hw2.
      unfold hwrite. apply sim_store; auto.
      + intros q. apply vwrite_rw.
      + intros m3 HM3. apply sim_ret; auto. apply moved_refl. apply (mv_wf _ _ _ _ _ HM3).
      + intros u z. apply vwrite_kind.
    - intros u z. apply vmove_kind.
  Qed.

  Lemma erase_range_sim v (m : mem) c f e : wf m (hdata v) ->
    sim m (hdata v) 0 T (h_erase_range dflt esz realloc_ok v m c f e) (erase_range dflt esz realloc_ok (abs m v) c f e).
  Proof.
    intros Hw. unfold h_erase_range, erase_range. cbn [abs vsize vdata valloc]. destruct (_ || _).
    { cbn [sim]. eexists _, _. splits; eauto. apply moved_refl; auto. }
    unfold hmove. apply sim_store; auto.
    - intros q. apply vmove_rw.
    - intros m2 HM2. eapply sim_conseq; [|auto]. apply resize_sim. apply (mv_wf _ _ _ _ _ HM2).
    - intros u z. apply vmove_kind.
  Qed.

  (** ---------------------------------------------------------------- programs *)

  Definition optr (o : option hvec) : option nat := match o with Some v => hdata v | None => None end.
  Definition owned (m : mem) (l : list (option hvec)) : nat := list_sum (map (fun o => own1 m (optr o)) l).

  Record R (hs : hstate A) (vs : vstate A) (d : nat) : Prop := {
    r_objs : objs vs = map (option_map (abs (hm hs))) (hobjs hs);
    r_calls : calls vs = hcalls hs;
    r_wf : forall i o, nth_error (hobjs hs) i = Some o -> wf (hm hs) (optr o);
    r_apart : forall i j o w a, nth_error (hobjs hs) i = Some o -> nth_error (hobjs hs) j = Some w ->
      optr o = Some a -> optr w = Some a -> i = j;
    r_count : (nlive (hm hs) = owned (hm hs) (hobjs hs) + d)%nat }.

  Lemma R_start : R hstate0 vstate0 0.
  Proof. split; cbn; auto; intros [|]; cbn; discriminate. Qed.

  Lemma sum_set {B} (f : B -> nat) l : forall i x y, nth_error l i = Some x ->
    (list_sum (map f (set_nth l i y)) + f x = list_sum (map f l) + f y)%nat.
  Proof.
    induction l as [|b l IH]; intros [|i] x y H; cbn in H; try discriminate.
    - injection H as ->. cbn. lia.
    - specialize (IH _ _ y H). cbn. unfold list_sum in IH. lia.
  Qed.

  Lemma moved_view' (m : mem) p m' p' x q : moved m p m' p' x -> wf m q -> (forall a, q = Some a -> p <> Some a) -> view m' q = view m q.
  Proof.
    intros HM Hq Hne. destruct q as [a|]; auto. cbn. rewrite (mv_frame _ _ _ _ _ HM); auto.
  Qed.

  Lemma map_set {B C} (f : B -> C) l : forall i x, map f (set_nth l i x) = set_nth (map f l) i (f x).
  Proof. induction l as [|b l IH]; intros [|i] x; cbn; auto. rewrite IH. auto. Qed.

  Lemma set_ext {B C} (f g : B -> C) l y : forall i, (forall j b, j <> i -> nth_error l j = Some b -> f b = g b) ->
    set_nth (map f l) i y = set_nth (map g l) i y.
  Proof.
    induction l as [|b l IH]; intros [|i] H; cbn; auto.
    - f_equal. apply map_ext_in. intros c Hc. destruct (In_nth_error _ _ Hc) as [j Hj]. apply (H (S j)); auto.
    - f_equal; [apply (H 0%nat); auto|]. apply IH. intros j c Hj Hc. apply (H (S j)); auto.
  Qed.

  Lemma own1_none (m : mem) : own1 m None = 0%nat.
  Proof. auto. Qed.

  (** one object and its block change *)
  Lemma R_set hs vs d i o o' m' x c : R hs vs d -> nth_error (hobjs hs) i = Some o -> moved (hm hs) (optr o) m' (optr o') x ->
    R (mkHS (set_nth (hobjs hs) i o') m' c) (mkS (set_nth (objs vs) i (option_map (abs m') o')) c) (d + x).
  Proof.
    intros HR Hi HM.
    assert (Hv : forall j w, j <> i -> nth_error (hobjs hs) j = Some w -> view m' (optr w) = view (hm hs) (optr w)).
    { intros j w Hj Hw. eapply moved_view'; eauto; [eapply r_wf; eauto|]. intros a Ha Hp. apply Hj.
      eapply r_apart; eauto. }
    split; cbn [hobjs hm hcalls objs calls]; auto.
    - rewrite (r_objs _ _ _ HR), map_set. apply set_ext. intros j [w|] Hj Hw; cbn; auto. f_equal. unfold abs.
      specialize (Hv _ _ Hj Hw). cbn in Hv. rewrite Hv. auto.
    - intros j w. rewrite set_nth_nth. destruct (Nat.eqb_spec i j) as [<-|Hij].
      + destruct (_ <? _)%nat; [|discriminate]. intros [= <-]. apply (mv_wf _ _ _ _ _ HM).
      + intros Hw a Ha. pose proof (r_wf _ _ _ HR _ _ Hw a Ha). pose proof (mv_len _ _ _ _ _ HM). lia.
    - assert (HN : forall j w a, j <> i -> nth_error (hobjs hs) j = Some w -> optr w = Some a -> optr o' <> Some a).
      { intros j w a Hj Hw Ha Ho. pose proof (r_wf _ _ _ HR _ _ Hw a Ha).
        destruct (mv_ptr _ _ _ _ _ HM) as [E|[E|(b & E & Hb)]]; rewrite E in Ho; try discriminate.
        - apply Hj. eapply r_apart; eauto.
        - injection Ho as ->. lia. }
      intros j k w z a. rewrite !set_nth_nth.
      destruct (Nat.eqb_spec i j) as [<-|Hij]; destruct (Nat.eqb_spec i k) as [<-|Hik]; auto.
      + destruct (_ <? _)%nat; [|discriminate]. intros [= <-] Hz Ha Hza. exfalso. eapply HN; eauto.
      + destruct (_ <? _)%nat; [|discriminate]. intros Hw [= <-] Ha Hza. exfalso. eapply HN; eauto.
      + intros. eapply r_apart; eauto.
    - pose proof (mv_count _ _ _ _ _ HM) as HC. pose proof (r_count _ _ _ HR) as HR'.
      assert (Ho : (owned m' (set_nth (hobjs hs) i o') + own1 (hm hs) (optr o) = owned (hm hs) (hobjs hs) + own1 m' (optr o'))%nat).
      { unfold owned. rewrite map_set.
        rewrite (set_ext (fun z => own1 m' (optr z)) (fun z => own1 (hm hs) (optr z))).
        2: { intros j b Hj Hb. unfold own1. rewrite (Hv _ _ Hj Hb). auto. }
        assert (Hm : nth_error (map (fun z => own1 (hm hs) (optr z)) (hobjs hs)) i = Some (own1 (hm hs) (optr o))).
        { rewrite nth_error_map, Hi. auto. }
        pose proof (sum_set (fun z => z) _ _ _ (own1 m' (optr o')) Hm) as S1. rewrite !map_id in S1. exact S1. }
      lia.
  Qed.

  (** a new object *)
  Lemma R_add hs vs d v m' c : R hs vs d -> moved (hm hs) None m' (hdata v) 0 ->
    R (mkHS (hobjs hs ++ [Some v]) m' c) (mkS (objs vs ++ [Some (abs m' v)]) c) d.
  Proof.
    intros HR HM.
    assert (Hv : forall w, In w (hobjs hs) -> view m' (optr w) = view (hm hs) (optr w)).
    { intros w Hw. destruct (In_nth_error _ _ Hw) as [j Hj]. eapply moved_view'; eauto; [eapply r_wf; eauto|]. discriminate. }
    split; cbn [hobjs hm hcalls objs calls]; auto.
    - rewrite (r_objs _ _ _ HR), map_app. f_equal. apply map_ext_in. intros [w|] Hw; cbn; auto. f_equal. unfold abs.
      specialize (Hv _ Hw). cbn in Hv. rewrite Hv. auto.
    - intros j w. destruct (Nat.lt_ge_cases j (length (hobjs hs))).
      + rewrite nth_error_app1; auto. intros Hw a Ha. pose proof (r_wf _ _ _ HR _ _ Hw a Ha). pose proof (mv_len _ _ _ _ _ HM). lia.
      + rewrite nth_error_app2; auto. destruct (j - length (hobjs hs))%nat as [|k] eqn:E; cbn; [|destruct k; discriminate].
        intros [= <-]. apply (mv_wf _ _ _ _ _ HM).
    - assert (HN : forall j w a, nth_error (hobjs hs) j = Some w -> optr w = Some a -> hdata v <> Some a).
      { intros j w a Hw Ha Ho. pose proof (r_wf _ _ _ HR _ _ Hw a Ha).
        destruct (mv_ptr _ _ _ _ _ HM) as [E|[E|(b & E & Hb)]]; rewrite E in Ho; try discriminate.
        injection Ho as ->. lia. }
      assert (HI : forall j w, nth_error (hobjs hs ++ [Some v]) j = Some w ->
        (nth_error (hobjs hs) j = Some w) \/ (j = length (hobjs hs) /\ w = Some v)).
      { intros j w. destruct (Nat.lt_ge_cases j (length (hobjs hs))).
        - rewrite nth_error_app1; auto.
        - rewrite nth_error_app2; auto. destruct (j - length (hobjs hs))%nat as [|k] eqn:E; cbn; [|destruct k; discriminate].
          intros [= <-]. right. split; auto. lia. }
      intros j k w z a Hj Hk Ha Hz.
      destruct (HI _ _ Hj) as [Hj'|[-> ->]]; destruct (HI _ _ Hk) as [Hk'|[-> ->]]; auto.
      + eapply r_apart; eauto.
      + exfalso. eapply HN; eauto.
      + exfalso. eapply HN; eauto.
    - pose proof (mv_count _ _ _ _ _ HM) as HC. pose proof (r_count _ _ _ HR) as HR'. rewrite own1_none in HC.
      unfold owned. rewrite map_app, list_sum_app. cbn [map list_sum fold_right optr].
      rewrite (map_ext_in _ (fun o => own1 (hm hs) (optr o))).
      2: { intros w Hw. unfold own1. rewrite (Hv _ Hw). auto. }
      fold (owned (hm hs) (hobjs hs)). lia.
  Qed.

  (** ---------------------------------------------------------------- one call *)

  Definition simst (d : nat) (o : vop A) (h : outcome (hstate A * vanswer A)) (s : outcome (vstate A * vanswer A)) : Prop :=
    match s with
    | Ret (vs, a) => exists hs, h = Ret (hs, a) /\ R hs vs (d + emplaced [o] [a])
    | UB _ => exists u, h = UB u
    | Diverge => h = Diverge
    | _ => False
    end.

  Lemma obj_view hs vs d i : R hs vs d ->
    (exists v, nth_error (hobjs hs) i = Some (Some v) /\ h_obj hs i = Ret v /\ get_obj vs i = Ret (abs (hm hs) v)) \/
    (h_obj hs i = UB DeadObject /\ get_obj vs i = UB DeadObject).
  Proof.
    intros HR. unfold h_obj, get_obj. rewrite (r_objs _ _ _ HR), nth_error_map.
    destruct (nth_error (hobjs hs) i) as [[v|]|]; cbn; eauto.
  Qed.

  Lemma fin_ok hs vs d i v x Q o r s : R hs vs d -> nth_error (hobjs hs) i = Some (Some v) ->
    sim (hm hs) (hdata v) x Q r s -> emplaced [o] [RUnit] = x -> (forall e, emplaced [o] [RThrow e] = 0)%nat ->
    simst d o (r' <- r ;; Ret (h_finish hs i r')) (s' <- s ;; Ret (finish vs i s')).
  Proof.
    intros HR Hi HS Hx He. unfold sim in HS. destruct s as [[[w c] [e|]]|e|u| |z]; cbn [bind]; try contradiction.
    - destruct HS as (hv & m' & -> & <- & HM). cbn [bind finish h_finish simst]. eexists. split; [reflexivity|].
      rewrite He. apply (R_set hs vs d i (Some v) (Some hv) m' 0 c); auto.
    - destruct HS as (hv & m' & -> & <- & HM & _). cbn [bind finish h_finish simst]. eexists. split; [reflexivity|].
      rewrite Hx. apply (R_set hs vs d i (Some v) (Some hv) m' x c); auto.
    - destruct HS as (w & ->). cbn. eauto.
    - subst r. reflexivity.
  Qed.

  Lemma read_ok hs vs d o v k : R hs vs d -> (forall a, emplaced [o] [RVal a] = 0)%nat ->
    simst d o (a <- hread (hm hs) (hdata v) k ;; Ret (hs, RVal a)) (a <- vread (vdata (abs (hm hs) v)) k ;; Ret (vs, RVal a)).
  Proof.
    intros HR He. unfold hread. cbn [abs vdata]. destruct (vread_kind (view (hm hs) (hdata v)) k) as [[a ->]|[u ->]]; cbn [bind simst].
    - eexists. split; [reflexivity|]. rewrite He, Nat.add_0_r. auto.
    - eauto.
  Qed.

  Lemma calloc_m_ok (m : mem) c n : exists p m', calloc_m zero esz calloc_ok m c n = (p, m') /\ moved m None m' p 0 /\
    view m' p = calloc zero esz calloc_ok c n.
  Proof.
    unfold calloc_m. destruct (calloc zero esz calloc_ok c n) as [| |cs] eqn:E.
    - exists None, m. splits; auto. apply moved_refl. discriminate.
    - unfold calloc in E. destruct (_ && _); discriminate.
    - unfold obtain. eexists _, _. split; [reflexivity|]. split; [|apply obtain_view]. split.
      + rewrite app_length. lia.
      + intros b Hb _. rewrite nth_error_app1; auto.
      + right. right. eexists. split; [reflexivity|]. rewrite app_length. cbn. lia.
      + intros a [= <-]. rewrite app_length. cbn. lia.
      + unfold own1 at 2. rewrite obtain_view, nlive_app. cbn. lia.
  Qed.

  (** a constructor: allocation, then a write *)
  Lemma make_ok hs vs d o c n (m1 : mem) p q0 : R hs vs d -> moved (hm hs) None m1 p 0 ->
    (forall q, q0 = Ret q -> rewritten (view m1 p) q) -> (forall u z, q0 <> Throw u /\ q0 <> Exit z /\ q0 <> Diverge) ->
    (forall k, emplaced [o] [RObj k] = 0)%nat ->
    simst d o (m2 <- (q <- q0 ;; Ret (store m1 p q)) ;; Ret (h_add hs m2 c (mkH p n n)))
      (q <- q0 ;; Ret (add_obj vs c (mkV q n n))).
  Proof.
    intros HR HM Hr Hk He. destruct q0 as [q|e|u| |z]; cbn [bind].
    - destruct (store_ok m1 p q (mv_wf _ _ _ _ _ HM) (Hr q eq_refl)) as [HM2 HV]. unfold h_add, add_obj. cbn [simst].
      eexists. split.
      + rewrite (r_objs _ _ _ HR), map_length. reflexivity.
      + rewrite He, Nat.add_0_r. pose proof (R_add hs vs d (mkH p n n) (store m1 p q) c HR (moved_trans _ _ _ _ _ _ 0 0 HM HM2)) as HA.
        unfold abs in HA. cbn [hdata hsize halloc] in HA. rewrite HV in HA. exact HA.
    - destruct (Hk e 0%Z) as (H & _). congruence.
    - cbn. eauto.
    - destruct (Hk BadAllocNoMemory 0%Z) as (_ & _ & H). congruence.
    - destruct (Hk BadAllocNoMemory z) as (_ & H & _). congruence.
  Qed.

  Lemma vreads_kind (p : ptr A) n : forall k, (exists l, vreads p k n = Ret l) \/ (exists u, vreads p k n = UB u).
  Proof.
    induction n as [|n IH]; intros k; cbn [vreads]; eauto.
    destruct (vread_kind p k) as [[a ->]|[u ->]]; cbn; eauto. destruct (IH (k + 1)) as [[l ->]|[u ->]]; cbn; eauto.
  Qed.

  Lemma clear_sim (m : mem) v : wf m (hdata v) ->
    match vclear (abs m v) with
    | Ret w => exists m', h_clear v m = Ret (mkH None 0 0, m') /\ w = mkV Null 0 0 /\ moved m (hdata v) m' None 0
    | UB _ => exists u, h_clear v m = UB u
    | _ => False
    end.
  Proof.
    intros Hw. unfold vclear, h_clear. cbn [abs vdata]. destruct (view m (hdata v)) as [| |cs] eqn:E; eauto.
    - eexists. splits; eauto. split; auto; [discriminate|]. unfold own1. rewrite E. cbn. lia.
    - eexists. splits; eauto. destruct (release_ok _ _ _ E) as (_ & HL & Hlen & HF & Hfr). split; auto; try lia; [discriminate|].
      unfold own1. rewrite E. cbn. lia.
  Qed.

  Notation hvstep := (hvstep zero dflt esz calloc_ok realloc_ok).
  Notation vstep := (vstep zero dflt esz calloc_ok realloc_ok).
  Notation hvrun := (hvrun zero dflt esz calloc_ok realloc_ok).
  Notation vrun := (vrun zero dflt esz calloc_ok realloc_ok).

  Ltac theobj HR i v Hi := destruct (obj_view _ _ _ i HR) as [(v & Hi & -> & ->)|[-> ->]]; cbn [bind]; [|cbn; eauto; fail].

  Ltac fin HR Hi x L := eapply (fin_ok _ _ _ _ _ x); [exact HR|exact Hi|apply L; eauto|reflexivity|reflexivity].

  Lemma step_ok hs vs d o : R hs vs d -> simst d o (hvstep hs o) (vstep vs o).
  Proof.
    intros HR. pose proof (r_calls _ _ _ HR) as Hc.
    assert (Hwf : forall i v, nth_error (hobjs hs) i = Some (Some v) -> wf (hm hs) (hdata v)).
    { intros i v Hi. exact (r_wf _ _ _ HR _ _ Hi). }
    assert (HR0 : R hs vs (d + 0)) by (rewrite Nat.add_0_r; auto).
    unfold VectorHeapModel.hvstep, VectorModel.vstep. rewrite Hc. destruct o.
    - (* VNew *)
      cbn [simst add_obj h_add]. unfold add_obj, h_add. eexists. split; [rewrite (r_objs _ _ _ HR), map_length; reflexivity|].
      cbn [emplaced]. rewrite Nat.add_0_r. apply (R_add hs vs d (mkH None 0 0) (hm hs)); auto. apply moved_refl. discriminate.
    - (* VSized *)
      destruct (calloc_m_ok (hm hs) (hcalls hs) n) as (p & m1 & -> & HM & HV).
      cbn [simst]. unfold add_obj, h_add. eexists. split; [rewrite (r_objs _ _ _ HR), map_length; reflexivity|].
      cbn [emplaced]. rewrite Nat.add_0_r. rewrite <- HV. apply (R_add hs vs d (mkH p n n) m1); auto.
    - (* VFilled *)
      destruct (calloc_m_ok (hm hs) (hcalls hs) n) as (p & m1 & -> & HM & HV). rewrite <- HV. unfold hfill.
      apply make_ok; auto; [intros q; apply vfill_rw|intros; apply vfill_kind].
    - (* VList *)
      destruct (calloc_m_ok (hm hs) (hcalls hs) (N.of_nat (length l))) as (p & m1 & -> & HM & HV). rewrite <- HV. unfold hwrite.
      apply make_ok; auto; [intros q; apply vwrite_rw|intros; apply vwrite_kind].
    - (* VCopy *)
      theobj HR i v Hi. cbn [abs vsize].
      destruct (calloc_m_ok (hm hs) (hcalls hs) (hsize v)) as (p & m1 & -> & HM & HV). unfold helems, velems. cbn [abs vdata vsize].
      rewrite (moved_view' _ _ _ _ _ (hdata v) HM); [|eauto|discriminate].
      destruct (vreads_kind (view (hm hs) (hdata v)) (N.to_nat (hsize v)) 0) as [[l ->]|[u ->]]; cbn [bind]; [|cbn; eauto].
      rewrite <- HV. unfold hwrite. apply make_ok; auto; [intros q; apply vwrite_rw|intros; apply vwrite_kind].
    - (* VDestroy *)
      theobj HR i v Hi. pose proof (clear_sim (hm hs) v (Hwf _ _ Hi)) as HC.
      destruct (vclear (abs (hm hs) v)) as [w|e|u| |z]; cbn [bind]; try contradiction.
      + destruct HC as (m' & -> & -> & HM). cbn [bind simst]. eexists. split; [reflexivity|]. cbn [emplaced].
        unfold set_obj, h_put. rewrite Hc. apply (R_set hs vs d i (Some v) None m' 0); auto.
      + destruct HC as (w & ->). cbn. eauto.
    - (* VAssign *)
      theobj HR i v Hi. theobj HR j w Hj. destruct (Nat.eqb i j).
      + fin HR Hi 0%nat resize_sim.
      + unfold helems, velems. cbn [abs vdata vsize]. 
        destruct (vreads_kind (view (hm hs) (hdata w)) (N.to_nat (hsize w)) 0) as [[l ->]|[u ->]]; cbn [bind]; [|cbn; eauto].
        fin HR Hi 0%nat assign_list_sim.
    - theobj HR i v Hi. fin HR Hi 0%nat assign_list_sim.
    - theobj HR i v Hi. fin HR Hi 0%nat assign_n_sim.
    - theobj HR i v Hi. cbn. eauto.
    - theobj HR i v Hi. cbn. eauto.
    - theobj HR i v Hi. fin HR Hi 0%nat resize_sim.
    - theobj HR i v Hi. fin HR Hi 0%nat resize_with_sim.
    - theobj HR i v Hi. fin HR Hi 0%nat reserve_sim.
    - theobj HR i v Hi. apply read_ok; auto.
    - (* VSet *)
      theobj HR i v Hi. unfold hwrite. cbn [abs vdata vsize valloc].
      pose proof (vwrite_kind (view (hm hs) (hdata v)) k [a]) as HK.
      destruct (vwrite (view (hm hs) (hdata v)) k [a]) as [q|e|u| |z] eqn:E; cbn [bind].
      + destruct (store_ok (hm hs) (hdata v) q (Hwf _ _ Hi) (vwrite_rw _ _ _ _ E)) as [HM HV]. cbn [simst]. eexists. split; [reflexivity|].
        cbn [emplaced]. unfold set_obj, h_put. rewrite Hc.
        pose proof (R_set hs vs d i (Some v) (Some v) _ 0 (hcalls hs) HR Hi HM) as H. cbn [option_map] in H. unfold abs in H. rewrite HV in H. exact H.
      + destruct (HK e 0%Z) as (H & _). congruence.
      + cbn. eauto.
      + destruct (HK BadAllocNoMemory 0%Z) as (_ & _ & H). congruence.
      + destruct (HK BadAllocNoMemory z) as (_ & H & _). congruence.
    - theobj HR i v Hi. cbn [abs vsize]. destruct (_ <=? _); [cbn; eauto|]. apply (read_ok hs vs d _ v); auto.
    - theobj HR i v Hi. apply (read_ok hs vs d _ v); auto.
    - theobj HR i v Hi. fin HR Hi 0%nat push_back_sim.
    - (* VEmplace *)
      theobj HR i v Hi. fin HR Hi 1%nat emplace_back_sim.
    - (* VPop *)
      theobj HR i v Hi. unfold h_pop_back, pop_back, hread. cbn [abs vdata vsize valloc].
      destruct (vread_kind (view (hm hs) (hdata v)) (sub64 (hsize v) 1)) as [[a ->]|[u ->]]; cbn [bind simst]; [|eauto].
      eexists. split; [reflexivity|]. cbn [emplaced]. unfold set_obj, h_put. rewrite Hc.
      apply (R_set hs vs d i (Some v) (Some (mkH (hdata v) (sub64 (hsize v) 1) (halloc v))) (hm hs) 0); auto.
      apply moved_refl. exact (Hwf _ _ Hi).
    - theobj HR i v Hi. fin HR Hi 0%nat insert_n_sim.
    - theobj HR i v Hi. fin HR Hi 0%nat insert_list_sim.
    - theobj HR i v Hi. fin HR Hi 0%nat erase_range_sim.
    - theobj HR i v Hi. fin HR Hi 0%nat erase_range_sim.
    - (* VSwap *)
      theobj HR i v Hi. theobj HR j w Hj. cbn [simst]. eexists. split; [reflexivity|]. cbn [emplaced].
      unfold set_obj, h_put. cbn [hobjs hm hcalls objs calls]. rewrite Hc.
      assert (HX : forall k o, nth_error (set_nth (set_nth (hobjs hs) i (Some w)) j (Some v)) k = Some o ->
        nth_error (hobjs hs) (if Nat.eqb k j then i else if Nat.eqb k i then j else k) = Some o).
      { intros k o. rewrite !set_nth_nth, set_nth_length. rewrite (Nat.eqb_sym k j), (Nat.eqb_sym k i).
        destruct (Nat.eqb_spec j k) as [<-|Hjk].
        - destruct (_ <? _)%nat; [|discriminate]. intros [= <-]. auto.
        - destruct (Nat.eqb_spec i k) as [<-|Hik]; [|auto]. destruct (_ <? _)%nat; [|discriminate]. intros [= <-]. auto. }
      split; cbn [hobjs hm hcalls objs calls]; auto.
      + rewrite !map_set, (r_objs _ _ _ HR). reflexivity.
      + intros k o Hk. apply HX in Hk. eapply r_wf; eauto.
      + intros k1 k2 o1 o2 a H1 H2 Ha1 Ha2. apply HX in H1, H2.
        pose proof (r_apart _ _ _ HR _ _ _ _ _ H1 H2 Ha1 Ha2) as HE. revert HE.
        destruct (Nat.eqb_spec k1 j), (Nat.eqb_spec k2 j), (Nat.eqb_spec k1 i), (Nat.eqb_spec k2 i); intros; subst; auto; congruence.
      + rewrite (r_count _ _ _ HR), Nat.add_0_r. f_equal. unfold owned.
        pose proof (sum_set (fun o => own1 (hm hs) (optr o)) _ _ _ (Some w) Hi) as S1.
        assert (Hj2 : nth_error (set_nth (hobjs hs) i (Some w)) j = Some (Some w)).
        { rewrite set_nth_nth. destruct (Nat.eqb_spec i j); auto. subst. 
          destruct (Nat.ltb_spec j (length (hobjs hs))); auto. apply nth_error_None in H. congruence. }
        pose proof (sum_set (fun o => own1 (hm hs) (optr o)) _ _ _ (Some v) Hj2) as S2. lia.
    - (* VClear *)
      theobj HR i v Hi. pose proof (clear_sim (hm hs) v (Hwf _ _ Hi)) as HC.
      destruct (vclear (abs (hm hs) v)) as [w|e|u| |z]; cbn [bind]; try contradiction.
      + destruct HC as (m' & -> & -> & HM). cbn [bind simst]. eexists. split; [reflexivity|]. cbn [emplaced].
        unfold set_obj, h_put. rewrite Hc. apply (R_set hs vs d i (Some v) (Some (mkH None 0 0)) m' 0); auto.
      + destruct HC as (w & ->). cbn. eauto.
    - (* VElems *)
      theobj HR i v Hi. unfold helems, velems. cbn [abs vdata vsize].
      destruct (vreads_kind (view (hm hs) (hdata v)) (N.to_nat (hsize v)) 0) as [[l ->]|[u ->]]; cbn [bind simst emplaced]; eauto.
  Qed.

  Lemma emplaced_cons o a (l : list (vop A)) as_ : emplaced (o :: l) (a :: as_) = (emplaced [o] [a] + emplaced l as_)%nat.
  Proof. destruct o, a; reflexivity. Qed.

  Lemma run_ok l : forall hs vs d, R hs vs d ->
    match vrun vs l with
    | Ret (vs', as_) => exists hs', hvrun hs l = Ret (hs', as_) /\ R hs' vs' (d + emplaced l as_)
    | UB _ => exists u, hvrun hs l = UB u
    | Diverge => hvrun hs l = Diverge
    | _ => False
    end.
  Proof.
    induction l as [|o l IH]; intros hs vs d HR; cbn [VectorModel.vrun VectorHeapModel.hvrun].
    - eexists. split; [reflexivity|]. cbn. rewrite Nat.add_0_r. auto.
    - pose proof (step_ok hs vs d o HR) as HS. unfold simst in HS. destruct (vstep vs o) as [[vs1 a]|e|u| |z]; cbn [bind]; try contradiction.
      + destruct HS as (hs1 & -> & HR1). cbn [bind]. specialize (IH _ _ _ HR1).
        destruct (vrun vs1 l) as [[vs2 as_]|e|u| |z]; cbn [bind]; try contradiction.
        * destruct IH as (hs2 & -> & HR2). eexists. split; [reflexivity|]. rewrite emplaced_cons.
          replace (d + (emplaced [o] [a] + emplaced l as_))%nat with (d + emplaced [o] [a] + emplaced l as_)%nat by lia. auto.
        * destruct IH as (w & ->). cbn. eauto.
        * rewrite IH. auto.
      + destruct HS as (w & ->). cbn. eauto.
      + rewrite HS. auto.
  Qed.

  Lemma owned_held (m : mem) l : owned m l = length (filter (fun o => match o with
    | Some v => match view m (hdata v) with Block _ => true | _ => false end | None => false end) l).
  Proof.
    unfold owned. induction l as [|[v|] l IH]; auto. cbn [map filter optr list_sum fold_right].
    change (fold_right Nat.add 0%nat) with list_sum. rewrite IH. unfold own1. destruct (view m (hdata v)); auto.
  Qed.

  Lemma counted l hs as_ : hvrun hstate0 l = Ret (hs, as_) ->
    (live_blocks hs = blocks_held hs + emplaced l as_)%nat /\
    (forall i j v w a, nth_error (hobjs hs) i = Some (Some v) -> nth_error (hobjs hs) j = Some (Some w) ->
      hdata v = Some a -> hdata w = Some a -> i = j).
  Proof.
    intros H. pose proof (run_ok l hstate0 vstate0 0 R_start) as HS.
    destruct (vrun vstate0 l) as [[vs bs]|e|u| |z]; try contradiction.
    - destruct HS as (hs' & E & HR). rewrite H in E. injection E as <- <-. split.
      + unfold live_blocks, blocks_held. rewrite <- owned_held. exact (r_count _ _ _ HR).
      + intros i j v w a Hi Hj. exact (r_apart _ _ _ HR i j _ _ a Hi Hj).
    - destruct HS as (w & E). congruence.
    - congruence.
  Qed.

  Lemma none_held (hs : hstate A) : Forall (eq None) (hobjs hs) -> blocks_held hs = 0%nat.
  Proof.
    unfold blocks_held. intros H. induction H as [|o l Ho _ IH]; cbn; auto. subst o. auto.
  Qed.

  Lemma none_emplaced (l : list (vop A)) : no_emplace l -> forall as_, emplaced l as_ = 0%nat.
  Proof.
    induction l as [|o l IH]; intros H as_; [destruct as_; auto|]. destruct as_ as [|a as_]; [destruct o; auto|].
    rewrite emplaced_cons, IH; [|intros i b Hb; apply (H i b); cbn; auto].
    destruct o; cbn; auto. destruct (H i a0). cbn. auto.
  Qed.

  Lemma same_answers l :
    (forall as_, (exists hs, hvrun hstate0 l = Ret (hs, as_)) <-> (exists vs, vrun vstate0 l = Ret (vs, as_))) /\
    ((exists u, hvrun hstate0 l = UB u) <-> (exists u, vrun vstate0 l = UB u)) /\
    (hvrun hstate0 l = Diverge <-> vrun vstate0 l = Diverge).
  Proof.
    pose proof (run_ok l hstate0 vstate0 0 R_start) as HS.
    destruct (vrun vstate0 l) as [[vs bs]|e|u| |z]; try contradiction.
    - destruct HS as (hs & -> & _). splits; try split; try (intros [? ?]; discriminate); try discriminate; intros [? [= _ <-]]; eauto.
    - destruct HS as (w & ->). splits; try split; try (intros [? ?]; discriminate); try discriminate; eauto.
    - rewrite HS. splits; try split; try (intros [? ?]; discriminate); eauto.
  Qed.
End Sim.
