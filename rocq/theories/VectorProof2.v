(** Programs with several vectors. *)
From Verif Require Import Base VectorSpec VectorModel VectorProof.
From Coq Require Import List NArith ZArith Bool Lia.
Import ListNotations.
Local Open Scope N_scope.

Section Proof.
  Context {A : Type}.
  Variables zero dflt : A.
  Variable esz : N.
  Variables calloc_ok realloc_ok : nat -> N -> bool.
  Hypothesis esz_pos : 0 < esz.
  Hypothesis calloc_never_fails : forall c n, calloc_ok c n = true.

  Notation vec := (vec A).
  Notation world := (world (A:=A)).
  Notation vstep := (vstep zero dflt esz calloc_ok realloc_ok).
  Notation vrun := (vrun zero dflt esz calloc_ok realloc_ok).
  Notation vspec := (vspec zero dflt esz).
  Notation shape := (shape esz).
  Notation good := (good esz realloc_ok).
  Notation refused := (refused realloc_ok).

  Notation len_copies := (len_copies esz esz_pos).
  Notation len_app := (len_app esz esz_pos).
  Notation resized_len := (resized_len esz esz_pos).
  Notation vwrite_shape := (vwrite_shape esz esz_pos).
  Notation vfill_all := (vfill_all esz esz_pos).

  Definition same (x : option vec) (y : option (list A)) : Prop :=
    match x, y with
    | Some v, Some l => shape v l
    | None, None => True
    | _, _ => False
    end.
  Definition R (s : vstate A) (w : world) : Prop := Forall2 same (objs s) w.

  Lemma R_length s w : R s w -> length (objs s) = length w.
  Proof. unfold R. induction 1; cbn; auto. Qed.

  Lemma R_live s w i l : R s w -> live w i = Some l -> exists v, get_obj s i = Ret v /\ nth_error (objs s) i = Some (Some v) /\ shape v l.
  Proof.
    unfold R, live, get_obj. intros HR. revert i. induction HR as [|x y xs ys Hxy HR IH]; intros [|i] Hl; cbn [nth_error] in *; try discriminate.
    - destruct y; [|discriminate]. injection Hl as ->. destruct x; [|destruct Hxy]. eauto.
    - apply IH. exact Hl.
  Qed.

  Lemma R_set s w i x y : R s w -> same x y -> forall c, R (mkS (set_nth (objs s) i x) c) (set_nth w i y).
  Proof.
    unfold R. intros HR Hxy c. cbn [objs]. revert i. induction HR as [|a b l l' Hab HR IH]; intros [|i]; cbn [set_nth]; constructor; auto.
  Qed.

  Lemma set_nth_same {B} (l : list B) : forall i b, nth_error l i = Some b -> set_nth l i b = l.
  Proof.
    induction l as [|x l IH]; intros [|i] b H; cbn in *; try discriminate; [now injection H as ->|]. now rewrite IH.
  Qed.

  Lemma R_add s w v l c : R s w -> shape v l -> R (mkS (objs s ++ [Some v]) c) (w ++ [Some l]).
  Proof. unfold R. intros HR Hs. cbn [objs]. apply Forall2_app; auto. Qed.

  Lemma live_set (w : world) i l : live w i = Some l -> set_nth w i (Some l) = w.
  Proof.
    unfold live. intros H. apply set_nth_same. destruct (nth_error w i) as [[x|]|]; try discriminate. now injection H as ->.
  Qed.

  (** the conclusion of the step lemma *)
  Definition stepped (o : vop A) (m : outcome (vstate A * vanswer A)) (w w' : world) (a : vanswer A) : Prop :=
    exists s' a', m = Ret (s', a') /\
      ((a' = a /\ R s' w') \/ (allocates o /\ a' = RThrow BadAllocNoMemory /\ R s' w /\ refused)).

  Lemma stepped_good s w i v l l' cap o m : R s w -> live w i = Some l -> nth_error (objs s) i = Some (Some v) ->
    allocates o -> good m v l' cap ->
    stepped o (r <- m ;; Ret (finish s i r)) w (set_nth w i (Some l')) RUnit.
  Proof.
    intros HR Hl Hn Ha (v' & c & e & -> & [(-> & Hs & _)|(-> & -> & Href)]); cbn [bind finish].
    - exists (mkS (set_nth (objs s) i (Some v')) c), RUnit. split; auto. left. split; auto. apply R_set; auto.
    - exists (mkS (set_nth (objs s) i (Some v)) c), (RThrow BadAllocNoMemory). split; auto. right. split; auto. split; auto. split; auto.
      rewrite (set_nth_same _ _ _ Hn). exact HR.
  Qed.

  Lemma vread_shape (v : vec) (l : list A) k a : shape v l -> nth_error l (N.to_nat k) = Some a -> vread (vdata v) k = Ret a.
  Proof.
    intros (_ & _ & Hd) Hn. assert (Hk : (N.to_nat k < length l)%nat) by (apply nth_error_Some; congruence).
    destruct Hd as [(_ & -> & _)|(rest & -> & _)]; [cbn in Hk; lia|]. unfold vread, ncells. rewrite app_length, map_length.
    replace (_ <? _) with true by (symmetry; apply N.ltb_lt; lia). rewrite nth_error_app1 by (rewrite map_length; lia).
    now rewrite (map_nth_error Some _ _ Hn).
  Qed.

  Lemma vreads_shape (v : vec) (l2 : list A) : forall l1, shape v (l1 ++ l2) -> vreads (vdata v) (N.of_nat (length l1)) (length l2) = Ret l2.
  Proof.
    induction l2 as [|a l2 IH]; intros l1 Hs; cbn [length vreads]; auto.
    rewrite (vread_shape v (l1 ++ a :: l2) _ a Hs).
    2:{ rewrite Nat2N.id, nth_error_app2, Nat.sub_diag; auto. }
    cbn [bind]. specialize (IH (l1 ++ [a])). rewrite app_length in IH. cbn [length] in IH.
    replace (N.of_nat (length l1 + 1)) with (N.of_nat (length l1) + 1) in IH by lia. rewrite IH; auto.
    rewrite <- app_assoc. exact Hs.
  Qed.

  Lemma velems_shape (v : vec) (l : list A) : shape v l -> velems v = Ret l.
  Proof.
    intros Hs. unfold velems. destruct (shape_len esz esz_pos v l Hs) as (-> & _). unfold len. rewrite Nat2N.id.
    exact (vreads_shape v l [] Hs).
  Qed.

  Lemma calloc_block c n : n * esz < 2^63 -> calloc zero esz calloc_ok c n = Block (map Some (copies n zero) ++ []).
  Proof.
    intros H. unfold calloc, max_size. change (2^63) with 9223372036854775808 in H.
    replace (n * esz <=? _) with true by (symmetry; apply N.leb_le; lia). rewrite calloc_never_fails. cbn [andb].
    unfold copies. rewrite map_repeat, app_nil_r. reflexivity.
  Qed.

  Lemma shape_new (l : list A) : len l * esz < 2^63 -> shape (mkV (Block (map Some l ++ [])) (len l) (len l)) l.
  Proof. intros H. split; [reflexivity|]. split; [exact H|]. right. exists []. split; [reflexivity|]. cbn. lia. Qed.

  Lemma vwrite_new (l : list A) c : len l * esz < 2^63 -> vwrite (calloc zero esz calloc_ok c (len l)) 0 l = Ret (Block (map Some l ++ [])).
  Proof.
    intros H. rewrite calloc_block by auto. pose proof (vwrite_shape [] (copies (len l) zero) [] [] l) as HW. cbn [app] in HW.
    rewrite !app_nil_r in *. change (len []) with 0 in HW. apply HW. pose proof (len_copies (len l) zero) as E. unfold len in *. lia.
  Qed.

  Lemma added o s w v l c : R s w -> shape v l -> stepped o (Ret (add_obj s c v)) w (w ++ [Some l]) (RObj (length w)).
  Proof.
    intros HR Hs. eexists _, _. split; [reflexivity|]. left. rewrite (R_length _ _ HR). split; auto. now apply R_add.
  Qed.

  Lemma set_nth_firstn {B} (l : list B) : forall k (b c : B), nth_error l k = Some c -> set_nth l k b = firstn k l ++ [b] ++ skipn (k + 1) l.
  Proof.
    induction l as [|x l IH]; intros [|k] b c H; cbn in *; try discriminate; auto. f_equal. eapply IH; eauto.
  Qed.

  Lemma rev_last (l : list A) a l' : rev l = a :: l' -> l = rev l' ++ [a].
  Proof. intros H. rewrite <- (rev_involutive l), H. reflexivity. Qed.

  Lemma sub64_pred n : 0 < n -> n < 2^63 -> sub64 n 1 = n - 1.
  Proof.
    intros H1 H2. unfold sub64, u64. change (1 mod 18446744073709551616) with 1. change (2^63) with 9223372036854775808 in H2.
    replace (n + 18446744073709551616 - 1) with (n - 1 + 1 * 18446744073709551616) by lia. rewrite N.mod_add by discriminate.
    apply N.mod_small. lia.
  Qed.

  Lemma vstep_ok s w o w' a : R s w -> vspec w o = Some (w', a) -> departs w o = false -> stepped o (vstep s o) w w' a.
  Proof.
    intros HR Hsp Hdp.
    assert (Hon : forall i l l' a', live w i = Some l -> on_seq dflt esz l o = Some (l', a') ->
      (forall v, get_obj s i = Ret v -> nth_error (objs s) i = Some (Some v) -> shape v l -> stepped o (vstep s o) w (set_nth w i (Some l')) a') ->
      stepped o (vstep s o) w (set_nth w i (Some l')) a').
    { intros i l l' a' Hl _ H. destruct (R_live s w i l HR Hl) as (v & H1 & H2 & H3). eauto. }
    assert (Hread : forall i l a', live w i = Some l -> stepped o (Ret (s, a')) w (set_nth w i (Some l)) a').
    { intros i l a' Hl. exists s, a'. split; auto. left. split; auto. now rewrite (live_set w i l Hl). }
    destruct o as [|n|n x|l0|i|i|i j|i l0|i n x|i|i|i n|i n x|i n|i k|i k x|i k|i|i x|i x|i|i k n x|i k l0|i k|i f e|i j|i|i];
      cbn [VectorSpec.vspec target] in Hsp; cbn [departs] in Hdp.
    - (* VNew *) cbn in Hsp. injection Hsp as <- <-. cbn [VectorModel.vstep]. apply added; auto.
      split; [reflexivity|]. split; [cbn; lia|]. left. auto.
    - (* VSized *)
      destruct (fits esz n) eqn:Hf; [|discriminate]. rewrite len_copies, Hf in Hsp. injection Hsp as <- <-. cbn [VectorModel.vstep].
      destruct (fits_small esz esz_pos n Hf) as [Hf1 _]. rewrite calloc_block by auto. apply added; auto.
      pose proof (shape_new (copies n zero)) as H. rewrite len_copies in H. auto.
    - (* VFilled *)
      destruct (fits esz n) eqn:Hf; [|discriminate]. rewrite len_copies, Hf in Hsp. injection Hsp as <- <-. cbn [VectorModel.vstep].
      destruct (fits_small esz esz_pos n Hf) as [Hf1 _]. rewrite calloc_block by auto.
      pose proof (vfill_all (copies n zero) [] x) as HF. rewrite len_copies in HF. rewrite HF. cbn [bind]. apply added; auto.
      pose proof (shape_new (copies n x)) as H. rewrite len_copies in H. auto.
    - (* VList *)
      destruct (fits esz (len l0)) eqn:Hf; [|discriminate]. injection Hsp as <- <-. cbn [VectorModel.vstep].
      destruct (fits_small esz esz_pos _ Hf) as [Hf1 _]. fold (len l0). rewrite vwrite_new by auto. cbn [bind]. apply added; auto.
      apply shape_new; auto.
    - (* VCopy *)
      destruct (live w i) as [l|] eqn:Hl; [|discriminate]. destruct (fits esz (len l)) eqn:Hf; [|discriminate]. injection Hsp as <- <-.
      destruct (R_live s w i l HR Hl) as (v & H1 & H2 & H3). cbn [VectorModel.vstep]. rewrite H1. cbn [bind].
      rewrite (velems_shape v l H3). cbn [bind]. destruct (shape_len esz esz_pos v l H3) as (-> & _).
      destruct (fits_small esz esz_pos _ Hf) as [Hf1 _]. rewrite vwrite_new by auto. cbn [bind]. apply added; auto. apply shape_new; auto.
    - (* VDestroy *)
      destruct (live w i) as [l|] eqn:Hl; [|discriminate]. injection Hsp as <- <-.
      destruct (R_live s w i l HR Hl) as (v & H1 & H2 & H3). cbn [VectorModel.vstep]. rewrite H1. cbn [bind]. unfold vclear.
      eexists _, _. split; [destruct H3 as (_ & _ & [(-> & _)|(rest & -> & _)]); reflexivity|]. left. split; auto. now apply R_set.
    - (* VAssign *)
      destruct (live w i) as [li|] eqn:Hi; [|discriminate]. destruct (live w j) as [lj|] eqn:Hj; [|discriminate]. injection Hsp as <- <-.
      destruct (R_live s w i li HR Hi) as (v & H1 & H2 & H3). destruct (R_live s w j lj HR Hj) as (v' & H1' & H2' & H3').
      cbn [VectorModel.vstep]. rewrite H1, H1'. cbn [bind]. destruct (Nat.eqb_spec i j) as [->|Hij].
      + rewrite Hi in Hj. injection Hj as ->. rewrite H1 in H1'. injection H1' as <-. clear H2' H3'. eapply stepped_good; eauto; [exact I|].
        destruct (shape_len esz esz_pos v lj H3) as (-> & _). pose proof (resize_good dflt esz realloc_ok esz_pos v (calls s) lj (len lj) H3 (shape_fits _ esz_pos _ _ H3)) as HG.
        replace (resized lj (len lj) dflt) with lj in HG; [exact HG|].
        unfold resized, take, len. rewrite firstn_all2 by lia. rewrite N.sub_diag. cbn. now rewrite app_nil_r.
      + rewrite (velems_shape v' lj H3'). cbn [bind]. eapply stepped_good; eauto; [exact I|].
        apply (assign_list_good dflt esz realloc_ok esz_pos v (calls s) li lj); auto. eapply shape_fits; eauto.
    - (* VAssignList *)
      destruct (live w i) as [l|] eqn:Hl; [|discriminate]. destruct (on_seq dflt esz l _) as [[l' a']|] eqn:Ho; [|discriminate]. injection Hsp as <- <-.
      eapply Hon; eauto. intros v Hg Hn Hs. cbn [on_seq] in Ho. destruct (fits esz (len l0)) eqn:Hf; [|discriminate]. injection Ho as <- <-.
      cbn [VectorModel.vstep]. rewrite Hg. cbn [bind]. eapply stepped_good; eauto; [exact I|]. eapply assign_list_good; eauto.
    - (* VAssignN *)
      destruct (live w i) as [l|] eqn:Hl; [|discriminate]. destruct (on_seq dflt esz l _) as [[l' a']|] eqn:Ho; [|discriminate]. injection Hsp as <- <-.
      eapply Hon; eauto. intros v Hg Hn Hs. cbn [on_seq] in Ho. destruct (fits esz n) eqn:Hf; [|discriminate]. destruct x as [x|]; [|discriminate].
      cbn [arg] in Ho. rewrite len_copies, Hf in Ho. injection Ho as <- <-.
      cbn [VectorModel.vstep]. rewrite Hg. cbn [bind]. eapply stepped_good; eauto; [exact I|]. eapply assign_n_good; eauto.
    - (* VSize *)
      destruct (live w i) as [l|] eqn:Hl; [|discriminate]. cbn [on_seq] in Hsp. injection Hsp as <- <-.
      destruct (R_live s w i l HR Hl) as (v & H1 & H2 & H3). cbn [VectorModel.vstep]. rewrite H1. cbn [bind].
      destruct (shape_len esz esz_pos v l H3) as (-> & _). now apply Hread.
    - (* VEmpty *)
      destruct (live w i) as [l|] eqn:Hl; [|discriminate]. cbn [on_seq] in Hsp. injection Hsp as <- <-.
      destruct (R_live s w i l HR Hl) as (v & H1 & H2 & H3). cbn [VectorModel.vstep]. rewrite H1. cbn [bind].
      destruct (shape_len esz esz_pos v l H3) as (-> & _). now apply Hread.
    - (* VResize *)
      destruct (live w i) as [l|] eqn:Hl; [|discriminate]. destruct (on_seq dflt esz l _) as [[l' a']|] eqn:Ho; [|discriminate]. injection Hsp as <- <-.
      eapply Hon; eauto. intros v Hg Hn Hs. cbn [on_seq] in Ho. destruct (fits esz n) eqn:Hf; [|discriminate].
      rewrite resized_len, Hf in Ho. injection Ho as <- <-.
      cbn [VectorModel.vstep]. rewrite Hg. cbn [bind]. eapply stepped_good; eauto; [exact I|]. eapply resize_good; eauto.
    - (* VResizeWith *)
      destruct (live w i) as [l|] eqn:Hl; [|discriminate]. destruct (on_seq dflt esz l _) as [[l' a']|] eqn:Ho; [|discriminate]. injection Hsp as <- <-.
      eapply Hon; eauto. intros v Hg Hn Hs. cbn [on_seq] in Ho. destruct (fits esz n) eqn:Hf; [|discriminate]. destruct x as [x|]; [|discriminate].
      cbn [arg] in Ho. rewrite resized_len, Hf in Ho. injection Ho as <- <-.
      cbn [VectorModel.vstep]. rewrite Hg. cbn [bind]. eapply stepped_good; eauto; [exact I|]. eapply resize_with_good; eauto.
    - (* VReserve *)
      destruct (live w i) as [l|] eqn:Hl; [|discriminate]. destruct (on_seq dflt esz l _) as [[l' a']|] eqn:Ho; [|discriminate]. injection Hsp as <- <-.
      eapply Hon; eauto. intros v Hg Hn Hs. cbn [on_seq] in Ho. destruct (fits esz n) eqn:Hf; [|discriminate]. injection Ho as <- <-.
      cbn [VectorModel.vstep]. rewrite Hg. cbn [bind]. eapply stepped_good; eauto; [exact I|]. eapply reserve_good; eauto.
    - (* VGet *)
      destruct (live w i) as [l|] eqn:Hl; [|discriminate]. cbn [on_seq] in Hsp. destruct (k <? len l); [|discriminate].
      destruct (nth_error l (N.to_nat k)) as [x|] eqn:Hx; [|discriminate]. injection Hsp as <- <-.
      destruct (R_live s w i l HR Hl) as (v & H1 & H2 & H3). cbn [VectorModel.vstep]. rewrite H1. cbn [bind].
      rewrite (vread_shape v l k x H3 Hx). cbn [bind]. now apply Hread.
    - (* VSet *)
      destruct (live w i) as [l|] eqn:Hl; [|discriminate]. destruct (on_seq dflt esz l _) as [[l' a']|] eqn:Ho; [|discriminate]. injection Hsp as <- <-.
      eapply Hon; eauto. intros v Hg Hn Hs. cbn [on_seq] in Ho. destruct (N.ltb_spec k (len l)) as [Hk|]; [|discriminate]. injection Ho as <- <-.
      cbn [VectorModel.vstep]. rewrite Hg. cbn [bind].
      destruct (nth_error l (N.to_nat k)) as [y|] eqn:Hy. 2:{ apply nth_error_None in Hy. unfold len in Hk. lia. }
      destruct (shape_block esz v l Hs) as (rest & Hv & Hr). { intros ->. unfold len in Hk. cbn in Hk. lia. }
      assert (Hl' : l = firstn (N.to_nat k) l ++ [y] ++ skipn (N.to_nat k + 1) l).
      { rewrite <- (set_nth_firstn l (N.to_nat k) y y Hy). symmetry. now apply set_nth_same. }
      assert (Hfl : len (firstn (N.to_nat k) l) = k) by (unfold len in *; rewrite firstn_length; lia).
      pose proof (vwrite_shape (firstn (N.to_nat k) l) [y] (skipn (N.to_nat k + 1) l) rest [x] eq_refl) as HW.
      rewrite <- Hl', Hfl in HW. rewrite Hv, HW. cbn [bind].
      rewrite (set_nth_firstn l (N.to_nat k) x y Hy).
      eexists _, _. split; [reflexivity|]. left. split; auto. apply R_set; auto. cbn [same].
      eapply shape_same; eauto; [|lia].
      rewrite Hl' at 3. rewrite !len_app. reflexivity.
    - (* VAt *)
      destruct (live w i) as [l|] eqn:Hl; [|discriminate]. cbn [on_seq] in Hsp.
      destruct (R_live s w i l HR Hl) as (v & H1 & H2 & H3). cbn [VectorModel.vstep]. rewrite H1. cbn [bind].
      destruct (shape_len esz esz_pos v l H3) as (-> & _).
      destruct (N.ltb_spec k (len l)) as [Hk|Hk].
      + destruct (nth_error l (N.to_nat k)) as [x|] eqn:Hx; [|discriminate]. injection Hsp as <- <-.
        replace (len l <=? k) with false by (symmetry; apply N.leb_gt; lia). rewrite (vread_shape v l k x H3 Hx). cbn [bind]. now apply Hread.
      + injection Hsp as <- <-. replace (len l <=? k) with true by (symmetry; apply N.leb_le; lia). now apply Hread.
    - (* VBack *)
      destruct (live w i) as [l|] eqn:Hl; [|discriminate]. cbn [on_seq] in Hsp. destruct (rev l) as [|x l'] eqn:Hr; [discriminate|]. injection Hsp as <- <-.
      destruct (R_live s w i l HR Hl) as (v & H1 & H2 & H3). cbn [VectorModel.vstep]. rewrite H1. cbn [bind].
      destruct (shape_len esz esz_pos v l H3) as (-> & Hq1 & Hq2 & _). apply rev_last in Hr.
      assert (Hlen : len l = len (rev l') + 1) by (rewrite Hr, len_app; reflexivity).
      rewrite sub64_pred by lia. rewrite (vread_shape v l _ x H3).
      2:{ rewrite Hlen, Hr. rewrite nth_error_app2; unfold len; [|lia]. replace (N.to_nat (N.of_nat (length (rev l')) + 1 - 1) - length (rev l'))%nat with 0%nat by lia. reflexivity. }
      cbn [bind]. now apply Hread.
    - (* VPush *)
      destruct (live w i) as [l|] eqn:Hl; [|discriminate]. destruct (on_seq dflt esz l _) as [[l' a']|] eqn:Ho; [|discriminate]. injection Hsp as <- <-.
      eapply Hon; eauto. intros v Hg Hn Hs. cbn [on_seq] in Ho. destruct x as [x|]; [|discriminate]. cbn [arg] in Ho.
      rewrite len_app in Ho. change (len [x]) with 1 in Ho. destruct (fits esz (len l + 1)) eqn:Hf; [|discriminate]. injection Ho as <- <-.
      cbn [VectorModel.vstep]. rewrite Hg. cbn [bind]. eapply stepped_good; eauto; [exact I|]. eapply push_back_good; eauto.
    - (* VEmplace *)
      destruct (live w i) as [l|] eqn:Hl; [|discriminate]. destruct (on_seq dflt esz l _) as [[l' a']|] eqn:Ho; [|discriminate]. injection Hsp as <- <-.
      eapply Hon; eauto. intros v Hg Hn Hs. cbn [on_seq] in Ho.
      rewrite len_app in Ho. change (len [x]) with 1 in Ho. destruct (fits esz (len l + 1)) eqn:Hf; [|discriminate]. injection Ho as <- <-.
      cbn [VectorModel.vstep]. rewrite Hg. cbn [bind]. eapply stepped_good; eauto; [exact I|]. eapply push_back_good; eauto.
    - (* VPop *)
      destruct (live w i) as [l|] eqn:Hl; [|discriminate]. destruct (on_seq dflt esz l _) as [[l' a']|] eqn:Ho; [|discriminate]. injection Hsp as <- <-.
      eapply Hon; eauto. intros v Hg Hn Hs. cbn [on_seq] in Ho. destruct (rev l) as [|x l2] eqn:Hr; [discriminate|]. injection Ho as <- <-.
      cbn [VectorModel.vstep]. rewrite Hg. cbn [bind]. apply rev_last in Hr.
      destruct (shape_len esz esz_pos v l Hs) as (Hsz & Hq1 & Hq2 & Hq3).
      assert (Hlen : len l = len (rev l2) + 1) by (rewrite Hr, len_app; reflexivity).
      unfold pop_back. rewrite Hsz. rewrite sub64_pred by lia. rewrite (vread_shape v l _ x Hs).
      2:{ rewrite Hlen, Hr. rewrite nth_error_app2; unfold len; [|lia]. replace (N.to_nat (N.of_nat (length (rev l2)) + 1 - 1) - length (rev l2))%nat with 0%nat by lia. reflexivity. }
      cbn [bind]. eexists _, _. split; [reflexivity|]. left. split; auto. apply R_set; auto. cbn [same].
      destruct (shape_block esz v l Hs) as (rest & Hv & Hrr). { rewrite Hr. destruct (rev l2); discriminate. }
      split; [cbn; lia|]. split; [exact Hq3|]. right. exists (Some x :: rest). cbn [vdata valloc length]. split.
      + rewrite Hv, Hr, map_app, <- app_assoc. reflexivity.
      + lia.
    - (* VInsert *)
      destruct (live w i) as [l|] eqn:Hl; [|discriminate]. destruct (on_seq dflt esz l _) as [[l' a']|] eqn:Ho; [|discriminate]. injection Hsp as <- <-.
      eapply Hon; eauto. intros v Hg Hn Hs. cbn [on_seq] in Ho. cbn [VectorModel.vstep]. rewrite Hg. cbn [bind].
      destruct (N.ltb_spec (len l) k) as [Hk|Hk].
      + injection Ho as <- <-. unfold insert_n. destruct (shape_len esz esz_pos v l Hs) as (-> & _).
        replace (len l <? k) with true by (symmetry; apply N.ltb_lt; lia). cbn [bind finish].
        eexists _, _. split; [reflexivity|]. left. split; auto. apply R_set; auto.
      + destruct (fits esz (len l + n)) eqn:Hf; [|discriminate]. destruct x as [x|]; [|discriminate]. cbn [arg] in Ho.
        destruct (fits esz (len _)); [|discriminate]. injection Ho as <- <-.
        eapply stepped_good; eauto; [exact I|]. eapply insert_n_good; eauto.
    - (* VInsertList *)
      destruct (live w i) as [l|] eqn:Hl; [|discriminate]. destruct (on_seq dflt esz l _) as [[l' a']|] eqn:Ho; [|discriminate]. injection Hsp as <- <-.
      eapply Hon; eauto. intros v Hg Hn Hs. cbn [on_seq] in Ho. cbn [VectorModel.vstep]. rewrite Hg. cbn [bind].
      destruct (N.ltb_spec (len l) k) as [Hk|Hk].
      + injection Ho as <- <-. unfold insert_list. destruct (shape_len esz esz_pos v l Hs) as (-> & _).
        replace (len l <? k) with true by (symmetry; apply N.ltb_lt; lia). cbn [bind finish].
        eexists _, _. split; [reflexivity|]. left. split; auto. apply R_set; auto.
      + destruct (fits esz (len (take k l ++ l0 ++ drop k l))) eqn:Hf; [|discriminate]. injection Ho as <- <-.
        eapply stepped_good; eauto; [exact I|]. eapply insert_list_good; eauto.
        rewrite !len_app in Hf. replace (len l) with (len (take k l) + len (drop k l)) by (rewrite <- len_app, take_drop; reflexivity).
        replace (len (take k l) + len (drop k l) + len l0) with (len (take k l) + (len l0 + len (drop k l))) by lia. exact Hf.
    - (* VErase *)
      destruct (live w i) as [l|] eqn:Hl; [|discriminate]. destruct (on_seq dflt esz l _) as [[l' a']|] eqn:Ho; [|discriminate]. injection Hsp as <- <-.
      eapply Hon; eauto. intros v Hg Hn Hs. cbn [on_seq] in Ho. cbn [VectorModel.vstep]. rewrite Hg. cbn [bind]. unfold erase_at.
      destruct (shape_len esz esz_pos v l Hs) as (Hsz & Hq1 & Hq2 & Hq3). change (2^63) with 9223372036854775808 in Hq2.
      destruct (N.ltb_spec k (len l)) as [Hk|Hk].
      + injection Ho as <- <-. apply N.eqb_neq in Hdp. rewrite u64_small by (change (2^64) with 18446744073709551616; lia).
        destruct (erase_good dflt esz realloc_ok esz_pos v (calls s) l k (k + 1) Hs) as [HG (v' & c' & HE)]; [lia|lia|].
        destruct HG as (v2 & c2 & e2 & HE2 & [(-> & Hs2 & _)|(-> & _)]); [|congruence]. rewrite HE2. cbn [bind finish].
        eexists _, _. split; [reflexivity|]. left. split; auto. apply R_set; auto.
      + injection Ho as <- <-. rewrite erase_throws.
        2:{ rewrite Hsz. destruct (N.ltb_spec k (2^64 - 1)) as [Hb|Hb].
            - right. rewrite u64_small; lia.
            - left. unfold u64. change (2^64 - 1) with 18446744073709551615 in Hb. pose proof (N.mod_lt (k + 1) 18446744073709551616). lia. }
        cbn [bind finish]. eexists _, _. split; [reflexivity|]. left. split; auto. apply R_set; auto.
    - (* VEraseRange *)
      destruct (live w i) as [l|] eqn:Hl; [|discriminate]. destruct (on_seq dflt esz l _) as [[l' a']|] eqn:Ho; [|discriminate]. injection Hsp as <- <-.
      eapply Hon; eauto. intros v Hg Hn Hs. cbn [on_seq] in Ho. cbn [VectorModel.vstep]. rewrite Hg. cbn [bind].
      destruct (shape_len esz esz_pos v l Hs) as (Hsz & Hq1 & Hq2 & Hq3).
      destruct (N.leb_spec f e) as [H1|H1]; cbn [andb] in *; [destruct (N.leb_spec e (len l)) as [H2|H2]; cbn [andb] in *|].
      + injection Ho as <- <-. apply orb_false_iff in Hdp as [Hd1 Hd2]. apply N.eqb_neq in Hd1, Hd2.
        destruct (erase_good dflt esz realloc_ok esz_pos v (calls s) l f e Hs) as [HG (v' & c' & HE)]; [lia|lia|].
        destruct HG as (v2 & c2 & e2 & HE2 & [(-> & Hs2 & _)|(-> & _)]); [|congruence]. rewrite HE2. cbn [bind finish].
        eexists _, _. split; [reflexivity|]. left. split; auto. apply R_set; auto.
      + injection Ho as <- <-. rewrite erase_throws by lia. cbn [bind finish]. eexists _, _. split; [reflexivity|]. left. split; auto. apply R_set; auto.
      + injection Ho as <- <-. rewrite erase_throws by lia. cbn [bind finish]. eexists _, _. split; [reflexivity|]. left. split; auto. apply R_set; auto.
    - (* VSwap *)
      destruct (live w i) as [li|] eqn:Hi; [|discriminate]. destruct (live w j) as [lj|] eqn:Hj; [|discriminate]. injection Hsp as <- <-.
      destruct (R_live s w i li HR Hi) as (v & H1 & H2 & H3). destruct (R_live s w j lj HR Hj) as (v' & H1' & H2' & H3').
      cbn [VectorModel.vstep]. rewrite H1, H1'. cbn [bind]. eexists _, _. split; [reflexivity|]. left. split; auto.
      unfold set_obj. cbn [objs calls]. apply (R_set (mkS (set_nth (objs s) i (Some v')) (calls s)) (set_nth w i (Some lj)) j (Some v) (Some li)); auto.
      apply R_set; auto.
    - (* VClear *)
      destruct (live w i) as [l|] eqn:Hl; [|discriminate]. cbn [on_seq] in Hsp. injection Hsp as <- <-.
      destruct (R_live s w i l HR Hl) as (v & H1 & H2 & H3). cbn [VectorModel.vstep]. rewrite H1. cbn [bind]. unfold vclear.
      eexists _, _. split; [destruct H3 as (_ & _ & [(-> & _)|(rest & -> & _)]); reflexivity|]. left. split; auto. apply R_set; auto. cbn [same].
      split; [reflexivity|]. split; [cbn; lia|]. left. auto.
    - (* VElems *)
      destruct (live w i) as [l|] eqn:Hl; [|discriminate]. cbn [on_seq] in Hsp. injection Hsp as <- <-.
      destruct (R_live s w i l HR Hl) as (v & H1 & H2 & H3). cbn [VectorModel.vstep]. rewrite H1. cbn [bind].
      rewrite (velems_shape v l H3). cbn [bind]. now apply Hread.
  Qed.

  (** ** Histories *)

  Lemma vrun_exact l : (forall c n, realloc_ok c n = true) -> forall s w w' as_, R s w -> vspec_run zero dflt esz w l = Some (w', as_) -> no_departure zero dflt esz w l ->
    exists s', vrun s l = Ret (s', as_) /\ R s' w'.
  Proof.
    intros Hmem. induction l as [|o l IH]; intros s w w' as_ HR Hr Hp; cbn [vspec_run no_departure VectorModel.vrun] in *.
    - injection Hr as <- <-. eauto.
    - destruct Hp as [Hd Hp]. destruct (vspec w o) as [[w1 a]|] eqn:Ho; [|discriminate].
      destruct (vspec_run zero dflt esz w1 l) as [[w2 as2]|] eqn:Hr2; [|discriminate]. injection Hr as <- <-.
      destruct (vstep_ok s w o w1 a HR Ho Hd) as (s1 & a1 & -> & [(-> & HR1)|(_ & _ & _ & (c & n & Hf))]); [|rewrite Hmem in Hf; discriminate].
      cbn [bind]. destruct (IH s1 w1 w2 as2 HR1 Hr2 Hp) as (s2 & -> & HR2). cbn [bind]. eauto.
  Qed.

  (** Whatever the allocator does: the history runs as specified, up to the first call that has no
      meaning or departs. *)
  Lemma vrun_any l : forall s w, R s w ->
    exists l1 l2 s' as_ w', l = l1 ++ l2 /\ vrun s l1 = Ret (s', as_) /\ vexec zero dflt esz w l1 as_ w' /\ R s' w' /\
      match l2 with [] => True | o :: _ => vspec w' o = None \/ departs w' o = true end.
  Proof.
    induction l as [|o l IH]; intros s w HR.
    - exists [], [], s, [], w. repeat split; auto. constructor.
    - destruct (vspec w o) as [[w1 a]|] eqn:Ho; [destruct (departs w o) eqn:Hd|].
      + exists [], (o :: l), s, [], w. repeat split; auto. constructor.
      + destruct (vstep_ok s w o w1 a HR Ho Hd) as (s1 & a1 & Hst & Hc).
        assert (Hex : exists w2, R s1 w2 /\ forall l' as' w3, vexec zero dflt esz w2 l' as' w3 -> vexec zero dflt esz w (o :: l') (a1 :: as') w3).
        { destruct Hc as [(-> & HR1)|(Ha & -> & HR1 & _)].
          - exists w1. split; auto. intros. econstructor; eauto.
          - exists w. split; auto. intros. now constructor. }
        destruct Hex as (w2 & HR2 & Hex). destruct (IH s1 w2 HR2) as (l1 & l2 & s' & as_ & w' & -> & H1 & H2 & H3 & H4).
        exists (o :: l1), l2, s', (a1 :: as_), w'. repeat split; auto. cbn [VectorModel.vrun]. rewrite Hst. cbn [bind]. rewrite H1. reflexivity.
      + exists [], (o :: l), s, [], w. repeat split; auto. constructor.
  Qed.

  (** size() <= capacity() <= allocated length *)
  Lemma shape_bounds (v : vec) (l : list A) : shape v l ->
    vsize v = len l /\ vsize v <= valloc v /\
    match vdata v with Null => valloc v = 0 | Freed => False | Block cs => valloc v <= ncells cs end.
  Proof.
    intros Hs. destruct (shape_len esz esz_pos v l Hs) as (H1 & H2 & _). split; auto. split; [lia|].
    destruct Hs as (_ & _ & [(-> & _ & H)|(rest & -> & H)]); auto. unfold ncells. rewrite app_length, map_length. unfold len in H. lia.
  Qed.

  (** ** Reached states *)

  Lemma vspec_nomem (w w' : world) o e : vspec w o = Some (w', RThrow e) -> e = OutOfRangeVector /\ w' = w.
  Proof.
    intros H.
    assert (Hon : forall i l l', live w i = Some l -> on_seq dflt esz l o = Some (l', RThrow e) -> e = OutOfRangeVector /\ set_nth w i (Some l') = w).
    { intros i l l' Hl Ho. assert (e = OutOfRangeVector /\ l' = l) as [-> ->]; [|split; auto; now apply live_set].
      destruct o; cbn in Ho; repeat match type of Ho with
        | (if ?c then _ else _) = _ => destruct c
        | match ?x with _ => _ end = _ => destruct x
        end; try discriminate; injection Ho as <- <-; auto. }
    unfold VectorSpec.vspec in H. destruct o; cbn [target] in H;
      try (match type of H with match ?x with _ => _ end = _ => destruct x eqn:Hl end; try discriminate;
           match type of H with match ?x with _ => _ end = _ => destruct x as [[l' a']|] eqn:Ho end; try discriminate;
           injection H as <- ->; eapply Hon; eauto);
      repeat match type of H with
        | (if ?c then _ else _) = _ => destruct c
        | match ?x with _ => _ end = _ => destruct x
        end; discriminate.
  Qed.

  Lemma vstep_departs s (w : world) o : R s w -> vspec w o <> None -> departs w o = true -> uses_own o = false ->
    vstep s o = Ret (s, RThrow OutOfRangeVector).
  Proof.
    intros HR Hsp Hd Hu. destruct o; cbn [departs uses_own] in *; try congruence.
    - destruct (live w i) as [l|] eqn:Hl; [|discriminate]. destruct (R_live s w i l HR Hl) as (v & H1 & H2 & H3).
      apply N.eqb_eq in Hd. cbn [VectorModel.vstep]. rewrite H1. cbn [bind]. unfold erase_at.
      destruct (shape_len esz esz_pos v l H3) as (Hsz & Hq1 & Hq2 & Hq3). change (2^63) with 9223372036854775808 in Hq2.
      rewrite erase_throws by (right; rewrite u64_small by (change (2^64) with 18446744073709551616; lia); lia).
      cbn [bind finish]. rewrite (set_nth_same _ _ _ H2). destruct s; reflexivity.
    - destruct (live w i) as [li|] eqn:Hl; [|discriminate]. destruct (R_live s w i li HR Hl) as (v & H1 & H2 & H3).
      cbn [VectorModel.vstep]. rewrite H1. cbn [bind].
      destruct (shape_len esz esz_pos v li H3) as (Hsz & Hq1 & Hq2 & Hq3).
      apply andb_prop in Hd as [Hd1 Hd2]. apply orb_prop in Hd2.
      rewrite erase_throws by (destruct Hd2 as [Hd2|Hd2]; apply N.eqb_eq in Hd2; lia).
      cbn [bind finish]. rewrite (set_nth_same _ _ _ H2). destruct s; reflexivity.
  Qed.

  Lemma reached_R s (w : world) : reached zero dflt esz calloc_ok realloc_ok s w -> R s w.
  Proof.
    induction 1 as [|s w o s' w' a Hr IH Hst Hsp Hd|s w o s' e Hr IH Hst Hsp Hu Ha].
    - constructor.
    - destruct (vstep_ok s w o w' a IH Hsp Hd) as (s1 & a1 & Hst1 & Hc). rewrite Hst in Hst1. injection Hst1 as <- <-.
      destruct Hc as [[_ H]|(_ & -> & H & _)]; auto. apply vspec_nomem in Hsp as [Hx _]. discriminate.
    - destruct (departs w o) eqn:Hd.
      + rewrite (vstep_departs s w o IH Hsp Hd Hu) in Hst. injection Hst as <- <-. exact IH.
      + destruct (vspec w o) as [[w' a]|] eqn:Ho; [|congruence].
        destruct (vstep_ok s w o w' a IH Ho Hd) as (s1 & a1 & Hst1 & Hc). rewrite Hst in Hst1. injection Hst1 as <- <-.
        destruct Hc as [[<- H]|(_ & _ & H & _)]; auto. apply vspec_nomem in Ho as [_ ->]. exact H.
  Qed.

  Lemma reached_step s (w : world) o : reached zero dflt esz calloc_ok realloc_ok s w -> vspec w o <> None -> uses_own o = false ->
    exists s' a, vstep s o = Ret (s', a) /\
      ((exists w', vspec w o = Some (w', a) /\ reached zero dflt esz calloc_ok realloc_ok s' w')
       \/ (exists e, a = RThrow e /\ reached zero dflt esz calloc_ok realloc_ok s' w)).
  Proof.
    intros Hr Hsp Hu. pose proof (reached_R s w Hr) as HR. destruct (departs w o) eqn:Hd.
    - pose proof (vstep_departs s w o HR Hsp Hd Hu) as Hst. exists s, (RThrow OutOfRangeVector). split; auto.
      right. exists OutOfRangeVector. split; auto.
    - destruct (vspec w o) as [[w' a]|] eqn:Ho; [|congruence].
      destruct (vstep_ok s w o w' a HR Ho Hd) as (s1 & a1 & Hst1 & Hc). exists s1, a1. split; auto.
      destruct Hc as [[-> H]|(Ha & -> & H & _)].
      + left. exists w'. split; auto. eapply reached_ok; eauto.
      + right. exists BadAllocNoMemory. split; auto. eapply reached_threw; eauto. rewrite Ho. discriminate.
  Qed.

  Lemma R_obj s (w : world) i v : R s w -> nth_error (objs s) i = Some (Some v) -> exists l, live w i = Some l /\ shape v l.
  Proof.
    unfold R, live. intros HR. revert i. induction HR as [|x y xs ys Hxy HR IH]; intros [|i] Hl; cbn [nth_error] in *; try discriminate.
    - injection Hl as ->. destruct y; [|destruct Hxy]. eauto.
    - apply IH. exact Hl.
  Qed.

  Lemma reached_bounds s (w : world) i v : reached zero dflt esz calloc_ok realloc_ok s w -> nth_error (objs s) i = Some (Some v) ->
    vsize v <= valloc v /\
    match vdata v with Null => valloc v = 0 | Freed => False | Block cs => valloc v <= ncells cs end /\
    exists l, live w i = Some l /\ vsize v = len l /\ velems v = Ret l.
  Proof.
    intros Hr Hn. destruct (R_obj s w i v (reached_R _ _ Hr) Hn) as (l & Hl & Hs). destruct (shape_bounds v l Hs) as (H1 & H2 & H3).
    split; auto. split; auto. exists l. split; auto. split; auto. now apply velems_shape.
  Qed.

  Lemma reached_reserve s (w : world) i v n : reached zero dflt esz calloc_ok realloc_ok s w -> nth_error (objs s) i = Some (Some v) ->
    fits esz n = true ->
    exists v' c e, reserve esz realloc_ok v (calls s) n = Ret (v', c, e) /\ velems v' = velems v /\
      ((e = None /\ n <= valloc v' /\ match vdata v' with Null => n = 0 | Freed => False | Block cs => n <= ncells cs end)
       \/ (e = Some BadAllocNoMemory /\ v' = v /\ refused)).
  Proof.
    intros Hr Hn Hf. destruct (R_obj s w i v (reached_R _ _ Hr) Hn) as (l & Hl & Hs).
    destruct (reserve_good esz realloc_ok esz_pos v (calls s) l n Hs Hf) as (v' & c & e & He & Hc). exists v', c, e. split; auto.
    destruct Hc as [(-> & Hs' & Hcap)|(-> & -> & Href)].
    - rewrite (velems_shape v' l Hs'), (velems_shape v l Hs). split; auto. left. split; auto. split; auto.
      destruct (shape_bounds v' l Hs') as (_ & _ & Hb). destruct (vdata v'); auto; lia.
    - split; auto.
  Qed.

  Lemma reached_erase s (w : world) i v l f e : reached zero dflt esz calloc_ok realloc_ok s w -> nth_error (objs s) i = Some (Some v) ->
    velems v = Ret l ->
    (f < e -> e < vsize v -> exists v' c, erase_range dflt esz realloc_ok v (calls s) f e = Ret (v', c, None) /\ velems v' = Ret (take f l ++ drop e l)) /\
    (e <= f \/ vsize v <= e -> erase_range dflt esz realloc_ok v (calls s) f e = Ret (v, calls s, Some OutOfRangeVector)).
  Proof.
    intros Hr Hn He. destruct (R_obj s w i v (reached_R _ _ Hr) Hn) as (l' & Hl & Hs).
    rewrite (velems_shape v l' Hs) in He. injection He as ->. split.
    - intros H1 H2. destruct (shape_len esz esz_pos v l Hs) as (Hsz & _). rewrite Hsz in H2.
      destruct (erase_good dflt esz realloc_ok esz_pos v (calls s) l f e Hs H1 H2) as [HG (v' & c' & HE)].
      destruct HG as (v2 & c2 & e2 & HE2 & [(-> & Hs2 & _)|(-> & _)]); [|congruence]. exists v2, c2. split; auto. now apply velems_shape.
    - apply erase_throws.
  Qed.

  (** ** The number of reallocations *)

  Lemma push_exact v c (l : list A) a : (forall c n, realloc_ok c n = true) -> shape v l -> valloc v = len l -> fits esz (len l + 1) = true ->
    exists v', push_back esz realloc_ok v c (Val a) = Ret (v', S c, None) /\ shape v' (l ++ [a]) /\ valloc v' = len (l ++ [a]).
  Proof.
    intros Hmem Hs Hc Hf. destruct (push_back_good esz realloc_ok esz_pos v c l a Hs Hf) as (v' & c' & e & HE & [(-> & Hs' & _)|(_ & _ & (c0 & n0 & H0))]); [|rewrite Hmem in H0; discriminate].
    assert (Hx : c' = S c /\ valloc v' = len l + 1).
    { destruct (shape_len esz esz_pos v l Hs) as (Hsz & Hq1 & Hq2 & Hq3). change (2^63) with 9223372036854775808 in Hq2.
      unfold push_back in HE. rewrite Hsz, u64_small in HE by (change (2^64) with 18446744073709551616; lia). unfold reserve in HE.
      replace (len l + 1 <=? valloc v) with false in HE by (symmetry; apply N.leb_gt; lia).
      destruct (fits_small esz esz_pos _ Hf) as [Hf1 Hf2].
      destruct (grow_200 (valloc v) (len l + 1)) as (t & Ht & Ht1 & Ht2); [lia|lia|]. rewrite Ht in HE. cbn [bind] in HE.
      assert (Hb : u64 (esz * t) = esz * t). { apply u64_small. change (2^64) with (2 * 2^63). nia. }
      rewrite Hb, Hmem in HE. replace (esz * t =? 0) with false in HE by (symmetry; apply N.eqb_neq; nia).
      destruct (vdata v); [|discriminate|];
        cbn [andthen bind use_arg vdata vsize valloc] in HE;
        match type of HE with (x <- ?m ;; _) = _ => destruct m; cbn [bind] in HE; try discriminate end;
        injection HE as <- <-; auto. }
    destruct Hx as [-> Hx]. exists v'. split; auto. split; auto. rewrite len_app. exact Hx.
  Qed.

  Lemma pushes_calls xs : (forall c n, realloc_ok c n = true) -> forall v c (l : list A), shape v l -> valloc v = len l -> fits esz (len l + len xs) = true ->
    exists v', vrun (mkS [Some v] c) (map (fun x => VPush 0 (Val x)) xs) = Ret (mkS [Some v'] (length xs + c), map (fun _ => RUnit) xs)
      /\ shape v' (l ++ xs) /\ valloc v' = len (l ++ xs).
  Proof.
    intros Hmem. induction xs as [|x xs IH]; intros v c l Hs Hc Hf.
    - exists v. rewrite app_nil_r. auto.
    - destruct (push_exact v c l x Hmem Hs Hc) as (v1 & H1 & H2 & H3).
      { revert Hf. apply fits_le; auto. unfold len. cbn [length]. lia. }
      destruct (IH v1 (S c) (l ++ [x]) H2 H3) as (v2 & E2 & S2 & C2).
      { rewrite len_app. change (len [x]) with 1. revert Hf. apply fits_le; auto. unfold len. cbn [length]. lia. }
      exists v2. rewrite <- app_assoc in S2, C2. split; auto. cbn [map VectorModel.vrun VectorModel.vstep objs calls get_obj nth_error bind].
      rewrite H1. cbn [bind finish set_nth objs calls get_obj nth_error]. rewrite E2. cbn [bind length]. replace (S (length xs) + c)%nat with (length xs + S c)%nat by lia. reflexivity.
  Qed.
End Proof.
