(** Bucket arrays allocated and freed by hash tables: lemmas behind HashArrayProps.v. *)
From Verif Require Import Base HashSpec HashModel HashHeapSpec HashHeapModel HashStorageSpec HashArraySpec HashArrayModel.
From Verif Require Import HashProof HashProof2 HashHeapProof HashStorageProof.
From Coq Require Import List NArith ZArith Lia Bool Permutation Arith.
From Coq Require Import ZifyBool ZifyNat ZifyN.
Import ListNotations.
Local Open Scope N_scope.

(** ** The arrays and the pointers to them *)
Definition opt (p : option nat) : list nat := match p with Some q => [q] | None => [] end.
Definition some (p : option nat) : bool := match p with Some _ => true | None => false end.
Definition own_arrays (ps : list (option nat)) : list nat := flat_map opt ps.
Definition acnt (al : list bool) : nat := length (filter (fun b => b) al).

(** every pointer is to an array of its own that is alive; [d] arrays have no pointer *)
Record Inv (ps : list (option nat)) (al : list bool) (d : nat) : Prop := {
  i_nodup : NoDup (own_arrays ps);
  i_alive : forall q, In q (own_arrays ps) -> nth_error al q = Some true;
  i_count : acnt al = (length (own_arrays ps) + d)%nat }.

Lemma own_upd ps i p : nth_error ps i = Some p ->
  exists a b, own_arrays ps = a ++ opt p ++ b /\ forall p', own_arrays (upd ps i p') = a ++ opt p' ++ b.
Proof.
  revert i. induction ps as [|x ps IH]; intros [|i] Hi; cbn in Hi; try discriminate.
  - injection Hi as ->. exists [], (own_arrays ps). split; reflexivity.
  - destruct (IH _ Hi) as (a & b & E & H). exists (opt x ++ a), b. unfold own_arrays in *. cbn. rewrite E.
    split; [rewrite !app_assoc; auto|]. intros p'. rewrite H, !app_assoc. auto.
Qed.

Lemma own_app a b : own_arrays (a ++ b) = own_arrays a ++ own_arrays b.
Proof. apply flat_map_app. Qed.

Lemma acnt_app a b : acnt (a ++ b) = (acnt a + acnt b)%nat.
Proof. unfold acnt. rewrite filter_app, app_length. auto. Qed.

Lemma acnt_kill al q : nth_error al q = Some true -> S (acnt (upd al q false)) = acnt al.
Proof.
  unfold acnt. revert q. induction al as [|b al IH]; intros [|q] Hq; cbn in Hq; try discriminate.
  - injection Hq as ->. reflexivity.
  - cbn. destruct b; cbn; rewrite IH; auto.
Qed.

Lemma upd_upd {A} (l : list A) i x y : upd (upd l i x) i y = upd l i y.
Proof. revert i. induction l; intros [|i]; cbn; auto. rewrite IHl. auto. Qed.

Lemma upd_self {A} (l : list A) i x : nth_error l i = Some x -> upd l i x = l.
Proof. revert i. induction l; intros [|i] H; cbn in *; try discriminate; [congruence|]. rewrite IHl; auto. Qed.

Lemma nth_upd_eq {A} (l : list A) i x y : nth_error l i = Some y -> nth_error (upd l i x) i = Some x.
Proof. revert i. induction l; intros [|i] H; cbn in *; try discriminate; eauto. Qed.

Lemma upd_app {A} (l m : list A) i x y : nth_error l i = Some y -> upd (l ++ m) i x = upd l i x ++ m.
Proof. revert i. induction l; intros [|i] H; cbn in *; try discriminate; auto. rewrite IHl; auto. Qed.

Lemma Inv_perm ps ps' al d : Permutation (own_arrays ps) (own_arrays ps') -> Inv ps al d -> Inv ps' al d.
Proof.
  intros HP [H1 H2 H3]. split.
  - eapply Permutation_NoDup; eauto.
  - intros q Hq. apply H2. eapply Permutation_in; [symmetry; exact HP|auto].
  - rewrite H3. f_equal. apply Permutation_length. auto.
Qed.

Lemma Inv_push ps al d : Inv ps al d -> Inv (ps ++ [Some (length al)]) (al ++ [true]) d.
Proof.
  intros [H1 H2 H3]. apply Inv_perm with (Some (length al) :: ps).
  { rewrite own_app. cbn. apply Permutation_cons_append. }
  split; cbn.
  - constructor; auto. intros Hin. apply H2 in Hin.
    assert (length al < length al)%nat by (apply nth_error_Some; congruence). lia.
  - intros q [<-|Hq].
    + rewrite nth_error_app2, Nat.sub_diag; auto.
    + rewrite nth_error_app1; auto. apply nth_error_Some. rewrite (H2 q Hq). discriminate.
  - rewrite acnt_app. unfold own_arrays in H3. rewrite H3. cbn. lia.
Qed.

Lemma Inv_null ps al d : Inv ps al d -> Inv (ps ++ [None]) al d.
Proof. apply Inv_perm. rewrite own_app. cbn. rewrite app_nil_r. reflexivity. Qed.

Lemma Inv_alloc ps al d i : nth_error ps i = Some None -> Inv ps al d ->
  Inv (upd ps i (Some (length al))) (al ++ [true]) d.
Proof.
  intros Hi HI. apply Inv_push in HI. revert HI. apply Inv_perm. rewrite own_app.
  destruct (own_upd _ _ _ Hi) as (a & b & -> & ->). cbn. rewrite <- app_assoc.
  apply Permutation_app_head. symmetry. apply Permutation_cons_append.
Qed.

Lemma Inv_free ps al d i p : nth_error ps i = Some p -> Inv ps al d ->
  exists al', free_array al p = Ret al' /\ free_array (al ++ [true]) p = Ret (al' ++ [true]) /\
    length al' = length al /\ Inv (upd ps i None) al' d.
Proof.
  intros Hi HI. destruct p as [q|].
  - destruct HI as [H1 H2 H3]. destruct (own_upd _ _ _ Hi) as (a & b & E & Hu). specialize (Hu None).
    cbn [opt app] in *. rewrite E in *.
    assert (Hq : nth_error al q = Some true) by (apply H2, in_app_iff; cbn; auto).
    exists (upd al q false). unfold free_array. rewrite Hq, nth_error_app1 by (apply nth_error_Some; congruence).
    rewrite Hq, (upd_app _ _ _ _ _ Hq). splits; auto.
    + clear. revert q. induction al; intros [|q]; cbn; auto.
    + apply NoDup_remove in H1 as [H1 Hni]. split; rewrite Hu; auto.
      * intros x Hx. rewrite nth_error_upd_ne; [|intros <-; auto]. apply H2. rewrite in_app_iff in *. cbn. tauto.
      * pose proof (acnt_kill _ _ Hq). rewrite app_length in *. cbn [length] in H3. lia.
  - exists al. cbn. rewrite upd_self by auto. auto.
Qed.

Lemma Inv_drop ps al d i p : nth_error ps i = Some p -> Inv ps al d ->
  Inv (upd ps i None) al (d + if some p then 1 else 0)%nat.
Proof.
  intros Hi [H1 H2 H3]. destruct p as [q|]; cbn [some].
  - destruct (own_upd _ _ _ Hi) as (a & b & E & Hu). specialize (Hu None). cbn [opt app] in *. rewrite E in *.
    apply NoDup_remove in H1 as [H1 _]. split; rewrite Hu; auto.
    + intros x Hx. apply H2. rewrite in_app_iff in *. cbn. tauto.
    + rewrite app_length in *. cbn [length] in H3. lia.
  - rewrite upd_self by auto. rewrite Nat.add_0_r. split; auto.
Qed.

(** the pointer [p] at [i] goes to [j], which has none *)
Lemma Inv_move ps al d i j p : i <> j -> nth_error ps i = Some None -> nth_error ps j = Some p -> Inv ps al d ->
  Inv (upd (upd ps i p) j None) al d.
Proof.
  intros Hij Hi Hj. apply Inv_perm.
  destruct (own_upd _ _ _ Hi) as (a & b & E & Hu).
  assert (Hj' : nth_error (upd ps i p) j = Some p) by (rewrite nth_error_upd_ne; auto).
  destruct (own_upd _ _ _ Hj') as (a' & b' & E' & Hu'). rewrite Hu'. specialize (Hu p). rewrite Hu in E'. rewrite E.
  cbn [opt app] in *. apply (Permutation_app_inv_l (opt p)).
  transitivity (a ++ opt p ++ b); [symmetry; apply Permutation_app_swap_app|].
  rewrite E'. apply Permutation_app_swap_app.
Qed.

Section Step.
  Context {K V : Type}.
  Variable keqb : K -> K -> bool.
  Variable hash : K -> N.
  Variable dflt : V.
  Variable k0 : K.
  Notation heap := (heap (K := K) (V := V)).
  Notation hkey := (hkey (V := V) k0).

  Lemma do_rehash_a_ok t t' n ps i p al d : do_rehash t n = Ret t' -> nth_error ps i = Some p -> Inv ps al d ->
    exists q al', do_rehash_a (t, p, al) n = Ret (t', Some q, al') /\ Inv (upd ps i (Some q)) al' d /\ isInit t' = true.
  Proof.
    intros HD Hi HI. destruct (Inv_free _ _ _ _ _ Hi HI) as (al1 & _ & HF & HL & HI1).
    unfold do_rehash_a, new_array. rewrite HD. cbn [bind]. rewrite HF. cbn [bind].
    exists (length al), (al1 ++ [true]). splits; auto.
    - rewrite <- HL, <- (upd_upd ps i None). apply Inv_alloc; auto. eapply nth_upd_eq; eauto.
    - unfold do_rehash in HD. apply bind_ret in HD as (x & _ & [= <-]). reflexivity.
  Qed.

  Lemma may_rehash_a_ok t t' ps i p al d : may_rehash t = Ret t' -> nth_error ps i = Some p -> Inv ps al d ->
    some p = isInit t ->
    exists p' al', may_rehash_a (t, p, al) = Ret (t', p', al') /\ Inv (upd ps i p') al' d /\ some p' = isInit t'.
  Proof.
    intros HM Hi HI Hp. unfold may_rehash in HM. unfold may_rehash_a.
    destruct (_ <? _); [|destruct (_ <? _)].
    1,2: destruct (do_rehash_a_ok _ _ _ _ _ _ _ _ HM Hi HI) as (q & al' & -> & HI' & ->); exists (Some q), al'; auto.
    injection HM as <-. exists p, al. rewrite upd_self by auto. auto.
  Qed.

  Lemma lookup_a_ok (h : heap) t t' j k ps i p al d : lookup_bucket_for (hkey h) keqb hash t k = Ret (t', j) ->
    nth_error ps i = Some p -> Inv ps al d ->
    exists q al', lookup_bucket_for_a keqb hash k0 h (t, p, al) k = Ret ((t', Some q, al'), j) /\
      Inv (upd ps i (Some q)) al' d.
  Proof.
    intros HL Hi HI. unfold lookup_bucket_for_a. destruct p as [q|].
    - rewrite HL. cbn [bind]. exists q, al. rewrite upd_self by auto. auto.
    - unfold new_array. rewrite HL. cbn [bind]. exists (length al), (al ++ [true]). split; auto. apply Inv_alloc; auto.
  Qed.

  Lemma insert_a_ok (h : heap) t t' ex e k mk ps i p al d :
    insert (hkey h) keqb hash t k mk (fun e => e) = Ret (t', ex, e) ->
    nth_error ps i = Some p -> Inv ps al d ->
    exists p' al', insert_a keqb hash k0 h (t, p, al) k mk = Ret ((t', p', al'), ex, e) /\
      Inv (upd ps i p') al' d /\ some p' = isInit t'.
  Proof.
    unfold insert, insert_a. intros HX Hi HI. apply bind_ret in HX as ([t1 j] & HL & HX).
    destruct (lookup_a_ok _ _ _ _ _ _ _ _ _ _ HL Hi HI) as (q & al1 & -> & HI1). cbn [bind].
    destruct (tbl t1) as [bs|]; [|discriminate]. destruct (nth_error bs j) as [b|]; [|discriminate].
    pose proof (nth_upd_eq _ _ (Some q) _ Hi) as Hi1.
    destruct (bslot b).
    - apply bind_ret in HX as (t2 & HM & [= <- <- <-]).
      destruct (may_rehash_a_ok _ _ _ _ _ _ _ HM Hi1 HI1 eq_refl) as (p' & al' & -> & HI2 & Hp). cbn [bind].
      rewrite upd_upd in HI2. eauto 6.
    - apply bind_ret in HX as (t2 & HM & [= <- <- <-]).
      destruct (may_rehash_a_ok _ _ _ _ _ _ _ HM Hi1 HI1 eq_refl) as (p' & al' & -> & HI2 & Hp). cbn [bind].
      rewrite upd_upd in HI2. eauto 6.
    - injection HX as <- <- <-. exists (Some q), al1. auto.
  Qed.

  Lemma erase_a_ok (h : heap) t t' ex k ps i p al d :
    erase (hkey h) keqb hash t k = Ret (t', ex) ->
    nth_error ps i = Some p -> Inv ps al d -> some p = isInit t ->
    exists p' al', erase_a keqb hash k0 h (t, p, al) k = Ret ((t', p', al'), ex) /\
      Inv (upd ps i p') al' d /\ some p' = isInit t'.
  Proof.
    unfold erase, erase_a. intros HX Hi HI Hp. apply bind_ret in HX as (r & -> & HX). cbn [bind].
    destruct r as [j|].
    - unfold isInit in Hp. destruct (tbl t) as [bs|]; [|discriminate]. apply bind_ret in HX as (t2 & HM & [= <- <-]).
      destruct (may_rehash_a_ok _ _ _ _ _ _ _ HM Hi HI Hp) as (p' & al' & -> & HI2 & Hp'). cbn [bind]. eauto 6.
    - injection HX as <- <-. exists p, al. rewrite upd_self by auto. auto.
  Qed.

  Lemma table_clear_a_ok (t : table ptr) ps i p al d : nth_error ps i = Some p -> Inv ps al d ->
    exists al', table_clear_a (t, p, al) = Ret (null_table, None, al') /\ Inv (upd ps i None) al' d.
  Proof.
    intros Hi HI. destruct (Inv_free _ _ _ _ _ Hi HI) as (al1 & HF & _ & _ & HI1).
    unfold table_clear_a. rewrite HF. cbn [bind]. eauto.
  Qed.

  Lemma copy_of_init ctor (h h' : heap) t t' : copy_of ctor h t = Ret (h', t') -> isInit t' = true.
  Proof.
    unfold copy_of. destruct (tbl t) as [bs|] eqn:E.
    - destruct (ctor && (nE t =? 0)).
      + intros [= <- <-]. unfold isInit. rewrite E. auto.
      + intros HX. apply bind_ret in HX as ([h1 b1] & _ & [= <- <-]). auto.
    - intros [= <- <-]. auto.
  Qed.

  (** a pointer is null exactly if the table has no buckets *)
  Definition linked (ts : list (table ptr)) (ps : list (option nat)) : Prop :=
    Forall2 (fun t p => some p = isInit t) ts ps.

  Lemma linked_nth ts ps i t : linked ts ps -> nth_error ts i = Some t ->
    exists p, nth_error ps i = Some p /\ some p = isInit t.
  Proof.
    intros H. revert i. induction H; intros [|i] Hi; cbn in *; try discriminate; eauto. injection Hi as <-. eauto.
  Qed.

  Lemma linked_upd ts ps i t p : linked ts ps -> some p = isInit t -> linked (upd ts i t) (upd ps i p).
  Proof. intros H Hp. revert i. induction H; intros [|i]; cbn; constructor; auto. apply IHForall2. Qed.

  Lemma linked_app ts ps t p : linked ts ps -> some p = isInit t -> linked (ts ++ [t]) (ps ++ [p]).
  Proof. intros H Hp. apply Forall2_app; auto. Qed.

  (** the array the step leaves without owner *)
  Definition left_over (ts : list (table ptr)) (o : wop K V) : nat :=
    match o with
    | WMoveAssign i j => if Nat.eqb i j then O else
        match nth_error ts i with Some t => if isInit t then 1%nat else O | None => O end
    | _ => O
    end.

  Definition AInv (s : astate (K := K) (V := V)) (d : nat) : Prop := linked (tbs (base s)) (buckets s) /\ Inv (buckets s) (alive s) d.

  Lemma step_same s o d b a : AInv s d -> hstep keqb hash dflt k0 (base s) o = Ret (b, a) ->
    exists s', astep keqb hash dflt k0 s o = Ret (s', a) /\ base s' = b /\ AInv s' (d + left_over (tbs (base s)) o).
  Proof.
    destruct s as [[h ts] ps al]. intros [HL HI] HS. cbn [base buckets alive tbs hp] in *.
    assert (HS' := HS). cbn [hstep] in HS.
    destruct o as [size|i k|p v|p|i k|i k|i|i|i|i m|i|i j|i|i j];
      cbn [hstep] in HS; unfold h_insert, h_find, h_erase, h_clear, h_rehash, h_rehash_to, h_copy, h_assign, h_move, h_move_assign, with_tab in HS;
      cbn [astep base buckets alive tbs hp left_over] in *; rewrite ?Nat.add_0_r; unfold with_cell; cbn [base buckets alive tbs hp].
    3,4,5,7: rewrite HS'; cbn [bind]; eexists; split; [reflexivity|]; split; [reflexivity|]; split; cbn [base buckets alive tbs hp]; auto.
    - injection HS as <- <-. unfold new_table. destruct (u32 size =? 0); eexists; split; try reflexivity; (split; [reflexivity|]); split; cbn [add_cell base buckets alive tbs hp].
      + apply linked_app; auto.
      + apply Inv_null; auto.
      + apply linked_app; auto.
      + apply Inv_push; auto.
    - destruct (nth_error ts i) as [t|] eqn:Ht; [|discriminate]. destruct (linked_nth _ _ _ _ HL Ht) as (p & Hp & Hsp). rewrite Hp.
      apply bind_ret in HS as ([[t' ex] e] & HX & [= <- <-]).
      destruct (insert_a_ok _ _ _ _ _ _ _ _ _ _ _ _ HX Hp HI) as (p' & al' & -> & HI' & Hp'). cbn [bind].
      eexists. split; [reflexivity|]. split; [reflexivity|]. split; cbn; auto. apply linked_upd; auto.
    - unfold h_write in HS. cbn [hp tbs] in HS. destruct (nth_error h p) as [[[k v0]|]|]; try discriminate. injection HS as <- <-. auto.
    - unfold h_read in HS. cbn [hp tbs] in HS. destruct (nth_error h p) as [[[k v0]|]|]; try discriminate. injection HS as <- <-. auto.
    - destruct (nth_error ts i); [|discriminate]. apply bind_ret in HS as (r & _ & [= <- <-]). auto.
    - destruct (nth_error ts i); [|discriminate]. injection HS as <- <-. auto.
    - destruct (nth_error ts i) as [t|] eqn:Ht; [|discriminate]. destruct (linked_nth _ _ _ _ HL Ht) as (p & Hp & Hsp). rewrite Hp.
      apply bind_ret in HS as (r & HX & HS). cbn [fst]. rewrite HX. cbn [bind]. apply bind_ret in HS as ([t' ex] & HE & [= <- <-]).
      destruct (erase_a_ok _ _ _ _ _ _ _ _ _ _ HE Hp HI Hsp) as (p' & al' & -> & HI' & Hp'). cbn [bind].
      eexists. split; [reflexivity|]. split; [reflexivity|]. split; cbn; auto. apply linked_upd; auto.
    - destruct (nth_error ts i) as [t|] eqn:Ht; [|discriminate]. destruct (linked_nth _ _ _ _ HL Ht) as (p & Hp & Hsp). rewrite Hp.
      unfold clear_a. destruct (nE t =? 0) eqn:E0.
      + injection HS as <- <-. cbn [bind put_cell base tbs buckets]. rewrite !upd_self by auto. eexists. splits; eauto. split; auto.
      + destruct (tbl t) as [bs|]; [|discriminate]. apply bind_ret in HS as (h' & -> & [= <- <-]). cbn [bind].
        destruct (table_clear_a_ok t _ _ _ _ _ Hp HI) as (al' & -> & HI'). cbn [bind]. unfold clear. rewrite E0.
        eexists. split; [reflexivity|]. split; [reflexivity|]. split; cbn; auto. apply linked_upd; auto.
    - destruct (nth_error ts i) as [t|] eqn:Ht; [|discriminate]. destruct (linked_nth _ _ _ _ HL Ht) as (p & Hp & Hsp). rewrite Hp.
      apply bind_ret in HS as (t' & HX & [= <- <-]).
      destruct (may_rehash_a_ok _ _ _ _ _ _ _ HX Hp HI Hsp) as (p' & al' & -> & HI' & Hp'). cbn [bind].
      eexists. split; [reflexivity|]. split; [reflexivity|]. split; cbn; auto. apply linked_upd; auto.
    - destruct (nth_error ts i) as [t|] eqn:Ht; [|discriminate]. destruct (linked_nth _ _ _ _ HL Ht) as (p & Hp & Hsp). rewrite Hp.
      apply bind_ret in HS as (t' & HX & [= <- <-]).
      destruct (do_rehash_a_ok _ _ _ _ _ _ _ _ HX Hp HI) as (q & al' & -> & HI' & Hp'). cbn [bind].
      eexists. split; [reflexivity|]. split; [reflexivity|]. split; cbn; auto. apply linked_upd; auto.
    - destruct (nth_error ts i) as [t|] eqn:Ht; [|discriminate]. destruct (linked_nth _ _ _ _ HL Ht) as (p & Hp & Hsp). rewrite Hp.
      apply bind_ret in HS as ([h' t'] & HX & [= <- <-]). cbn [new_array]. rewrite HX. cbn [bind].
      eexists. split; [reflexivity|]. split; [reflexivity|]. split; cbn.
      + apply linked_app; auto. rewrite (copy_of_init _ _ _ _ _ HX). auto.
      + apply Inv_push; auto.
    - destruct (nth_error ts i) as [t|] eqn:Ht; [|discriminate]. destruct (linked_nth _ _ _ _ HL Ht) as (p & Hp & Hsp). rewrite Hp. cbn [fst].
      assert (HC : exists al1, (if isInit t then table_clear_a (t, p, al) else @Ret cell (t, p, al)) = Ret (if isInit t then null_table else t, None, al1) :> outcome cell /\
                Inv (upd ps i None) al1 d).
      { destruct (isInit t) eqn:E; [apply table_clear_a_ok; auto|]. destruct p; [discriminate|]. exists al. rewrite upd_self; auto. }
      destruct HC as (al1 & -> & HI1). cbn [bind].
      assert (HT : exists tj pj, nth_error ts j = Some tj /\ nth_error ps j = Some pj /\
        exists h' t', copy_of false h (if Nat.eqb i j then if isInit t then null_table else t else tj) = Ret (h', t') /\
          b = mkSt h' (upd ts i t') /\ a = RDone).
      { destruct (Nat.eqb_spec i j) as [<-|Hij].
        - exists t, p. splits; auto. apply bind_ret in HS as ([h' t'] & HX & [= <- <-]). eauto.
        - destruct (nth_error ts j) as [tj|] eqn:Htj; [|discriminate]. destruct (linked_nth _ _ _ _ HL Htj) as (pj & Hpj & _).
          exists tj, pj. splits; auto. apply bind_ret in HS as ([h' t'] & HX & [= <- <-]). eauto. }
      destruct HT as (tj & pj & -> & -> & h' & t' & HX & -> & ->). cbn [new_array]. rewrite HX. cbn [bind].
      eexists. split; [reflexivity|]. split; [reflexivity|]. split; cbn.
      + apply linked_upd; auto. rewrite (copy_of_init _ _ _ _ _ HX). auto.
      + rewrite <- (upd_upd ps i None). apply Inv_alloc; auto. eapply nth_upd_eq; eauto.
    - destruct (nth_error ts i) as [t|] eqn:Ht; [|discriminate]. destruct (linked_nth _ _ _ _ HL Ht) as (p & Hp & Hsp). rewrite Hp.
      injection HS as <- <-. eexists. split; [reflexivity|]. split; [reflexivity|]. split; cbn.
      + apply linked_app; auto. apply linked_upd; auto.
      + revert HI. apply Inv_perm. rewrite own_app. destruct (own_upd _ _ _ Hp) as (x & y & -> & ->). cbn. rewrite app_nil_r.
        rewrite <- app_assoc. apply Permutation_app_head. apply Permutation_app_comm.
    - destruct (nth_error ts i) as [t|] eqn:Ht; [|discriminate]. destruct (linked_nth _ _ _ _ HL Ht) as (p & Hp & Hsp). rewrite Hp.
      destruct (nth_error ts j) as [tj|] eqn:Htj; [|discriminate]. destruct (linked_nth _ _ _ _ HL Htj) as (pj & Hpj & Hspj). rewrite Hpj.
      destruct (Nat.eqb_spec i j) as [<-|Hij].
      + injection HS as <- <-. rewrite Nat.add_0_r. eexists. splits; eauto. split; auto.
      + injection HS as <- <-. eexists. split; [reflexivity|]. split; [reflexivity|]. split; cbn.
        * apply linked_upd; auto. apply linked_upd; auto.
        * rewrite <- Hsp. rewrite <- (upd_upd ps i None). apply Inv_move; auto.
          -- eapply nth_upd_eq; eauto.
          -- rewrite nth_error_upd_ne; auto.
          -- apply Inv_drop; auto.
  Qed.

  Hypothesis keqb_ok : forall a b, reflect (a = b) (keqb a b).
  Notation R := (R hash dflt k0).
  Notation tab_ok := (tab_ok hash dflt k0).

  Lemma left_over_dropped s w n o a w' : R s w n -> wstep keqb dflt w o a w' ->
    N.of_nat (left_over (tbs s) o) = array_dropped w o.
  Proof.
    intros HR HW. destruct HW; try reflexivity. cbn [left_over array_dropped].
    destruct (Nat.eqb_spec i j); [congruence|]. rewrite H0.
    destruct (R_tab _ _ _ _ _ _ _ _ HR H0) as (x & -> & (_ & Hb & _) & _). unfold array_of. rewrite Hb.
    destruct (isInit x); reflexivity.
  Qed.

  Lemma owned_arrays s w n ps : R s w n -> linked (tbs s) ps -> N.of_nat (length (own_arrays ps)) = arrays_owned w.
  Proof.
    intros [_ HF _ _]. unfold arrays_owned. revert ps. induction HF as [|t st l l' (_ & Hb & _) HF IH]; intros ps HL;
      inversion HL as [|? p ? ps' Hp HL']; subst; auto.
    cbn. unfold own_arrays in *. rewrite <- (IH _ HL'), app_length. unfold array_of. rewrite Hb, <- Hp. destruct p; cbn [opt some negb length]; lia.
  Qed.

  Lemma run_arrays l : forall s w n c d, R (base s) w n -> AInv s d -> n + N.of_nat (length l) <= 2^28 ->
    cnt (hp (base s)) = owned w + c ->
    exists l1 l2 s' as_ w' na ne, l = l1 ++ l2 /\ arun keqb hash dflt k0 s l1 = Ret (s', as_) /\
      hrun keqb hash dflt k0 (base s) l1 = Ret (base s', as_) /\
      aloss keqb dflt w l1 as_ w' na ne /\ R (base s') w' (n + N.of_nat (length l1)) /\
      match l2 with [] => True | o :: _ => ~ enabled keqb dflt w' o end /\
      AInv s' (d + N.to_nat na) /\ cnt (hp (base s')) = owned w' + c + ne.
  Proof.
    induction l as [|o l IH]; intros s w n c d HR HA Hn HC.
    - exists [], [], s, [], w, 0, 0. cbn. rewrite N.add_0_r, Nat.add_0_r. splits; auto; [constructor|lia].
    - destruct (enabled_dec keqb hash keqb_ok dflt k0 (base s) w n o HR) as [He|He].
      + cbn [length] in Hn.
        destruct (hstep_ok keqb hash keqb_ok dflt k0 (base s) w n o HR ltac:(lia) He) as (b & a & w1 & Hs & Hw & HR1).
        pose proof (step_count keqb hash keqb_ok dflt k0 (base s) w n o b a w1 HR ltac:(lia) Hw Hs) as HX.
        rewrite (sizes_owned _ _ _ _ _ _ HR), (sizes_owned _ _ _ _ _ _ HR1) in HX.
        destruct (step_same _ _ _ _ _ HA Hs) as (s1 & Ha & Hb & HA1). subst b.
        destruct (IH s1 w1 (n + 1) (c + dropped w o) _ HR1 HA1 ltac:(lia) ltac:(lia))
          as (l1 & l2 & s' & as_ & w' & na & ne & -> & Hrun & Hrun' & Hex & HR' & Hend & HF & HC').
        exists (o :: l1), l2, s', (a :: as_), w', (array_dropped w o + na), (dropped w o + ne).
        cbn [app arun hrun]. rewrite Ha, Hs. cbn [bind]. rewrite Hrun, Hrun'. cbn [bind length]. splits; auto; [econstructor; eauto| | |lia].
        * replace (n + N.of_nat (S (length l1))) with (n + 1 + N.of_nat (length l1)) by lia. auto.
        * rewrite <- (left_over_dropped _ _ _ _ _ _ HR Hw).
          replace (d + N.to_nat (N.of_nat (left_over (tbs (base s)) o) + na))%nat with (d + left_over (tbs (base s)) o + N.to_nat na)%nat by lia. auto.
      + exists [], (o :: l), s, [], w, 0, 0. cbn. rewrite N.add_0_r, Nat.add_0_r. splits; auto; [constructor|lia].
  Qed.

  Lemma set_tab_twice (l : list (stab K V)) i x y : set_tab (set_tab l i x) i y = set_tab l i y.
  Proof. revert i. induction l; intros [|i]; cbn; auto. rewrite IHl. auto. Qed.

  Lemma nth_set_tab (l : list (stab K V)) i x j : nth_error (set_tab l i x) j =
    if Nat.eqb i j then if Nat.ltb i (length l) then Some x else None else nth_error l j.
  Proof.
    revert i j. induction l as [|y l IH]; intros [|i] [|j]; cbn; auto.
    - destruct (Nat.eqb i j); auto.
    - rewrite IH. reflexivity.
  Qed.

  Lemma set_tab_length (l : list (stab K V)) i x : length (set_tab l i x) = length l.
  Proof. revert i. induction l; intros [|i]; cbn; auto. Qed.

  Lemma owned_set (l : list (stab K V)) i x st : nth_error l i = Some st -> 
    fold_right (fun st n => card (smap st) + n) 0 (set_tab l i x) + card (smap st) =
    fold_right (fun st n => card (smap st) + n) 0 l + card (smap x).
  Proof.
    revert i. induction l as [|y l IH]; intros [|i] Hi; cbn in Hi; try discriminate.
    - injection Hi as ->. cbn. lia.
    - specialize (IH _ Hi). cbn. lia.
  Qed.

  Lemma tab_ok_null (h : heap) : tab_ok h null_table (mkS [] true).
  Proof.
    split; [|split; [reflexivity|split; [constructor|split; [reflexivity|intros p []]]]].
    split; [|constructor]. split; cbn; auto; discriminate.
  Qed.

  Definition emptied (w : world K V) (i : nat) : world K V := mkW (set_tab (tabs w) i (mkS [] true)) (next w).

  Lemma destroy_ok s w n d i st : R (base s) w n -> n < 2^28 -> AInv s d -> tab w i = Some st ->
    exists s', with_cell s i (fun c => '(h, c) <- destroy_a (hp (base s)) c ;; Ret (put_cell s i h c)) = Ret s' /\
      R (base s') (emptied w i) (n + 1) /\ AInv s' d /\ cnt (hp (base s')) + card (smap st) = cnt (hp (base s)).
  Proof.
    intros HR Hn HA Hi. destruct st as [m bb].
    assert (He : enabled keqb dflt w (WClear i)) by (eexists _, _; econstructor; eauto).
    destruct (hstep_ok keqb hash keqb_ok dflt k0 (base s) w n _ HR Hn He) as (b & a & w1 & Hs & Hw & HR1).
    pose proof (step_count keqb hash keqb_ok dflt k0 (base s) w n _ b a w1 HR Hn Hw Hs) as HX. cbn [dropped] in HX.
    rewrite (sizes_owned _ _ _ _ _ _ HR), (sizes_owned _ _ _ _ _ _ HR1) in HX.
    destruct (step_same _ _ _ _ _ HA Hs) as (s1 & Ha & Hb & HA1). subst b. cbn [left_over] in HA1. rewrite Nat.add_0_r in HA1.
    assert (Hw1 : exists b', w1 = mkW (set_tab (tabs w) i (mkS [] b')) (next w)) by (inversion Hw; subst; eauto).
    destruct Hw1 as (b' & ->). unfold owned in HX. cbn [tabs] in HX. pose proof (owned_set _ _ (mkS [] b') _ Hi) as HO. cbn [smap] in HO.
    change (card []) with 0 in HO.
    cbn [astep] in Ha. unfold with_cell in *.
    destruct (nth_error (tbs (base s)) i) as [t|] eqn:Ht; [|discriminate].
    destruct (nth_error (buckets s) i) as [p|] eqn:Hp; [|discriminate].
    apply bind_ret in Ha as ([h1 [[t1 p1] al1]] & HC & [= Hs1 _]). unfold destroy_a. rewrite HC. cbn [bind]. subst s1.
    cbn [put_cell base buckets alive tbs hp] in *. destruct HA1 as [HL1 HI1]. cbn [base buckets alive tbs hp] in *.
    destruct (table_clear_a_ok t1 _ i p1 _ _ (nth_upd_eq _ _ _ _ Hp) HI1) as (al2 & -> & HI2). cbn [bind].
    rewrite upd_upd in HI2. eexists. split; [reflexivity|]. cbn [base buckets alive tbs hp]. split; [|split].
    - assert (Hnx : next w = length h1) by (pose proof (r_next _ _ _ _ _ _ HR1) as Hx; exact Hx).
      assert (HR2 : R (mkSt h1 (upd (upd (tbs (base s)) i t1) i null_table))
                      (mkW (set_tab (set_tab (tabs w) i (mkS [] b')) i (mkS [] true)) (length h1)) (n + 1)).
      { apply (R_upd keqb hash keqb_ok dflt k0 (mkSt h1 (upd (tbs (base s)) i t1)) (mkW (set_tab (tabs w) i (mkS [] b')) (next w)) (n + 1) i t1 (mkS [] b')); auto; cbn [tbs tabs hp].
        - eapply nth_upd_eq; eauto.
        - unfold tab. cbn [tabs]. rewrite nth_set_tab, Nat.eqb_refl.
          destruct (Nat.ltb_spec i (length (tabs w))); auto. unfold tab in Hi.
          assert (i < length (tabs w))%nat by (apply nth_error_Some; congruence). lia.
        - intros j tj _ _ q _. reflexivity.
        - apply tab_ok_null.
        - intros q [].
        - lia.
        - cbn. lia. }
      rewrite upd_upd, set_tab_twice, <- Hnx in HR2. exact HR2.
    - split; cbn [base buckets alive tbs hp]; auto. destruct HA as [HL _]. apply linked_upd; auto.
    - cbn [smap put_cell base hp]. lia.
  Qed.

  Lemma destroy_all_ok l : forall s w n d, R (base s) w n -> n + N.of_nat (length l) <= 2^28 -> AInv s d ->
    Forall (fun i => (i < length (tabs w))%nat) l ->
    exists s' w', adestroy s l = Ret s' /\ R (base s') w' (n + N.of_nat (length l)) /\ AInv s' d /\
      length (tabs w') = length (tabs w) /\ cnt (hp (base s')) + owned w = cnt (hp (base s)) + owned w' /\
      (forall i, In i l -> tab w' i = Some (mkS [] true)) /\
      (forall i, tab w i = Some (mkS [] true) -> tab w' i = Some (mkS [] true)).
  Proof.
    induction l as [|i l IH]; intros s w n d HR Hn HA HF.
    - exists s, w. cbn. rewrite N.add_0_r. splits; auto. intros i [].
    - inversion HF as [|? ? Hi Hl]; subst. cbn [length] in Hn. destruct (nth_error_ex (tabs w) i Hi) as (st & Hst).
      destruct (destroy_ok s w n d i st HR ltac:(lia) HA Hst) as (s1 & Hs & HR1 & HA1 & HC1).
      destruct (IH s1 (emptied w i) (n + 1) d HR1 ltac:(lia) HA1) as (s' & w' & Hs' & HR' & HA' & HL' & HC' & HZ & HK).
      { cbn [emptied tabs]. rewrite set_tab_length. auto. }
      cbn [emptied tabs] in HL'. rewrite set_tab_length in HL'.
      assert (HK' : forall j, tab w j = Some (mkS [] true) \/ j = i -> tab w' j = Some (mkS [] true)).
      { intros j Hj. apply HK. unfold tab, emptied in *. cbn [tabs]. rewrite nth_set_tab.
        destruct (Nat.eqb_spec i j) as [->|Hne]; [|destruct Hj; [auto|congruence]].
        destruct (Nat.ltb_spec j (length (tabs w))); auto; lia. }
      exists s', w'. cbn [adestroy]. rewrite Hs. cbn [bind length]. splits; auto.
      + replace (n + N.of_nat (S (length l))) with (n + 1 + N.of_nat (length l)) by lia. auto.
      + pose proof (owned_set _ _ (mkS [] true) _ Hst) as HO. unfold owned, emptied in *. cbn [tabs smap] in *.
        change (card []) with 0 in HO. lia.
      + intros j [<-|Hj]; auto.
  Qed.

  Lemma aloss_wloss w l as_ w' na ne : aloss keqb dflt w l as_ w' na ne -> wloss keqb dflt w l as_ w' ne.
  Proof. induction 1; econstructor; eauto. Qed.

  Lemma aloss_zero w l as_ w' na ne : aloss keqb dflt w l as_ w' na ne -> Forall (fun o => ~ move_assigns o) l -> na = 0.
  Proof.
    induction 1 as [|w o a w1 l as_ w2 na ne HW HL IH]; intros HF; auto. inversion HF as [|? ? Ho Hl]; subst. rewrite (IH Hl).
    destruct o; cbn in *; try reflexivity; tauto.
  Qed.

  Lemma empty_world (w : world K V) : (forall i, (i < length (tabs w))%nat -> tab w i = Some (mkS [] true)) ->
    owned w = 0 /\ arrays_owned w = 0.
  Proof.
    unfold owned, arrays_owned, tab. induction (tabs w) as [|st l IH]; intros H; auto. cbn.
    specialize (H 0%nat) as H0. cbn in H0. specialize (H0 ltac:(lia)). injection H0 as ->.
    destruct IH as [-> ->]; auto. intros i Hi. apply (H (S i)). cbn. lia.
  Qed.

  Lemma arrays l : N.of_nat (length l) + N.of_nat (length l) <= 2^28 ->
    exists l1 l2 s answers w na ne, l = l1 ++ l2 /\ arun keqb hash dflt k0 astate0 l1 = Ret (s, answers) /\
      hrun keqb hash dflt k0 state0 l1 = Ret (base s, answers) /\
      aloss keqb dflt world0 l1 answers w na ne /\
      match l2 with [] => True | o :: _ => ~ enabled keqb dflt w o end /\
      live_arrays s = arrays_owned w + na /\ cnt (hp (base s)) = owned w + ne /\
      forall order, Permutation order (seq 0 (length (tabs w))) ->
        exists s', adestroy s order = Ret s' /\ live_arrays s' = na /\ cnt (hp (base s')) = ne.
  Proof.
    change (2^28) with 268435456. intros Hl.
    destruct (run_arrays l astate0 world0 0 0 0%nat (R0 hash dflt k0)) as (l1 & l2 & s & as_ & w & na & ne & E & Hrun & Hrun' & HW & HR & Hend & HA & HC).
    { split; cbn; constructor; cbn; auto; [constructor|intros q []]. }
    { change (2^28) with 268435456. lia. }
    { reflexivity. }
    assert (Hcnt : forall s w n, R (base s) w n -> AInv s (N.to_nat na) -> live_arrays s = arrays_owned w + na).
    { intros s1 w1 n1 HR1 [HL1 HI1]. rewrite <- (owned_arrays _ _ _ _ HR1 HL1). unfold live_arrays.
      pose proof (i_count _ _ _ HI1) as Hx. unfold acnt in Hx. rewrite Hx. lia. }
    exists l1, l2, s, as_, w, na, ne. splits; auto; [eapply Hcnt; eauto|lia|].
    assert (Hlen : (length (tabs w) <= length l1)%nat).
    { assert (G : forall w0 l as_ w' a d, aloss keqb dflt w0 l as_ w' a d -> (length (tabs w') <= length (tabs w0) + length l)%nat).
      { induction 1 as [|w0 o a w1 l0 as0 w2 n0 n1 Hs HL IH]; [cbn; lia|]. cbn [length].
        assert (length (tabs w1) <= length (tabs w0) + 1)%nat; [|lia].
        inversion Hs; subst; cbn [tabs]; rewrite ?app_length, ?set_tab_length; cbn [length]; lia. }
      apply G in HW. cbn [tabs world0 length] in HW. lia. }
    assert (Hl1 : (length l1 <= length l)%nat) by (rewrite E, app_length; lia).
    intros order HP. pose proof (Permutation_length HP) as Hol. rewrite seq_length in Hol.
    destruct (destroy_all_ok order s w _ (N.to_nat na) HR) as (s' & w' & Hs' & HR' & HA' & HL' & HC' & HZ & _).
    - change (2^28) with 268435456. lia.
    - auto.
    - apply Forall_forall. intros i Hi. apply (Permutation_in _ HP), in_seq in Hi. lia.
    - destruct (empty_world w') as [Ho Ha].
      { intros i Hi. apply HZ. apply (Permutation_in _ (Permutation_sym HP)), in_seq. lia. }
      exists s'. split; [exact Hs'|]. rewrite (Hcnt _ _ _ HR' HA'), Ha, Ho in *. split; lia.
  Qed.

  Lemma no_arrays_lost l : N.of_nat (length l) + N.of_nat (length l) <= 2^28 -> Forall (fun o => ~ move_assigns o) l ->
    exists l1 l2 s answers w, l = l1 ++ l2 /\ arun keqb hash dflt k0 astate0 l1 = Ret (s, answers) /\
      wexec keqb dflt world0 l1 answers w /\
      match l2 with [] => True | o :: _ => ~ enabled keqb dflt w o end /\
      live_arrays s = arrays_owned w /\
      forall order, Permutation order (seq 0 (length (tabs w))) ->
        exists s', adestroy s order = Ret s' /\ live_arrays s' = 0.
  Proof.
    intros Hl HF. destruct (arrays l Hl) as (l1 & l2 & s & as_ & w & na & ne & E & Hrun & _ & HW & Hend & HC & _ & HD).
    assert (Hna : na = 0).
    { eapply aloss_zero; eauto. rewrite E in HF. apply Forall_app in HF. apply HF. }
    subst na. rewrite N.add_0_r in HC. exists l1, l2, s, as_, w. splits; auto.
    - eapply wloss_wexec, aloss_wloss; eauto.
    - intros order HP. destruct (HD order HP) as (s' & H1 & H2 & _). eauto.
  Qed.
End Step.
