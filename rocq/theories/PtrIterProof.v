(** Iterators refine positions. *)
From Verif Require Import Base PtrIterSpec PtrIterModel.
From Coq Require Import List NArith ZArith Bool Lia.
Import ListNotations.
Local Open Scope Z_scope.

Section Proof.
  Context {A : Type}.
  Variable unspecified : piter -> piter -> bool.
  Variable b : nat.
  Notation istep := (istep unspecified).
  Notation irun := (irun unspecified).

  Definition I (s : istate A) (w : iworld A) : Prop :=
    imem s b = Some (items w) /\ its s = map (mkP b) (pos w) /\ forall p, In p (pos w) -> 0 <= p <= Z.of_nat (length (items w)).

  Lemma put_map {B C} (f : B -> C) l : forall i x, put (map f l) i (f x) = map f (put l i x).
  Proof. induction l; intros [|i] x; cbn; auto. now rewrite IHl. Qed.
  Lemma put_length {B} (l : list B) : forall i x, length (put l i x) = length l.
  Proof. induction l; intros [|i] x; cbn; auto. Qed.
  Lemma In_put {B} (l : list B) x y : forall i, In y (put l i x) -> y = x \/ In y l.
  Proof.
    induction l as [|z l IH]; intros [|i]; cbn; try tauto.
    - intros [->|H]; auto.
    - intros [->|H]; auto. destruct (IH i H); auto.
  Qed.

  Lemma it_at_ok s w i p : I s w -> nth_error (pos w) i = Some p -> it_at s i = Ret (mkP b p) /\ 0 <= p <= Z.of_nat (length (items w)).
  Proof.
    intros (_ & Hi & Hp) Hn. split.
    - unfold it_at. rewrite Hi. now rewrite (map_nth_error (mkP b) _ _ Hn).
    - apply Hp. eapply nth_error_In; eauto.
  Qed.

  Lemma add_ok s w p d : I s w -> valid w (p + d) = true -> ptr_add (imem s) (mkP b p) d = Ret (mkP b (p + d)).
  Proof. intros (Hm & _) Hv. unfold ptr_add. cbn [blk off]. rewrite Hm. unfold valid in Hv. now rewrite Hv. Qed.

  Lemma valid_range w p : @valid A w p = true -> 0 <= p <= Z.of_nat (length (items w)).
  Proof. unfold valid. intros H. apply andb_prop in H as [H1 H2]. lia. Qed.

  Lemma set_ok s w i p : I s w -> valid w p = true -> I (set_it s i (mkP b p)) (mkW (items w) (put (pos w) i p)).
  Proof.
    intros (Hm & Hi & Hp) Hv. split; [exact Hm|]. split; [cbn [set_it its pos]; now rewrite Hi, put_map|].
    cbn [pos items]. intros y Hy. apply In_put in Hy as [->|Hy]; auto. now apply valid_range.
  Qed.
  Lemma new_ok s w p : I s w -> 0 <= p <= Z.of_nat (length (items w)) ->
    I (fst (new_it s (mkP b p))) (mkW (items w) (pos w ++ [p])) /\ snd (new_it s (mkP b p)) = AIter (length (pos w)).
  Proof.
    intros (Hm & Hi & Hp) Hv. split.
    - split; [exact Hm|]. split; [cbn [fst new_it its pos]; now rewrite Hi, map_app|].
      cbn [pos items]. intros y Hy. apply in_app_iff in Hy as [Hy|[<-|[]]]; auto.
    - cbn [snd new_it]. now rewrite Hi, map_length.
  Qed.
  Lemma load_ok s w p a : I s w -> elem (items w) p = Some a -> load (imem s) (mkP b p) = Ret a.
  Proof.
    intros (Hm & _) He. unfold load. cbn [blk off]. rewrite Hm. unfold elem in He. destruct (p <? 0); [discriminate|]. now rewrite He.
  Qed.
  Lemma elem_range (l : list A) p a : elem l p = Some a -> 0 <= p < Z.of_nat (length l).
  Proof.
    unfold elem. destruct (Z.ltb_spec p 0); [discriminate|]. intros H1. assert (Z.to_nat p < length l)%nat by (apply nth_error_Some; congruence). lia.
  Qed.
  Lemma diff_ok s w p q : I s w -> ptr_diff (imem s) (mkP b p) (mkP b q) = Ret (p - q).
  Proof. intros (Hm & _). unfold ptr_diff. cbn [blk off]. now rewrite Nat.eqb_refl, Hm. Qed.

  Lemma new_eq s w p : I s w -> 0 <= p <= Z.of_nat (length (items w)) ->
    exists s', new_it s (mkP b p) = (s', AIter (length (pos w))) /\ I s' (mkW (items w) (pos w ++ [p])).
  Proof.
    intros HI Hp. destruct (new_ok s w p HI Hp) as [H1 H2]. destruct (new_it s (mkP b p)) as [s' a] eqn:E. cbn [fst snd] in *. subst a. eauto.
  Qed.

  Lemma istep_ok s w o w' a : I s w -> assigns o = false -> ispec w o = Some (w', a) -> exists s', istep s o = Ret (s', a) /\ I s' w'.
  Proof.
    intros HI Ha H. destruct o; cbn [ispec assigns] in *; try discriminate;
      unfold at_, compare in H; repeat match type of H with
        | match nth_error (pos w) ?i with _ => _ end = _ =>
            let p := fresh "p" in let E := fresh "E" in let R := fresh "R" in
            destruct (nth_error (pos w) i) as [p|] eqn:E; [|discriminate]; destruct (it_at_ok s w i p HI E) as [? R]
        end; cbn [PtrIterModel.istep];
      repeat match goal with E : it_at s ?i = _ |- _ => rewrite E; clear E end; cbn [bind].
    - (* copy *) unfold pi_copy. unfold fresh in H. destruct (valid w p) eqn:Hv; [|discriminate]. injection H as <- <-.
      destruct (new_eq s w p HI R) as (s' & -> & HI'). eauto.
    - (* deref *) unfold value in H. destruct (elem (items w) p) as [x|] eqn:Hx; [|discriminate]. injection H as <- <-.
      unfold pi_deref, pi_arrow. rewrite (load_ok s w p x HI Hx). cbn [bind]. eauto.
    - (* store *) destruct (elem (items w) p) as [x|] eqn:Hx; [|discriminate]. injection H as <- <-.
      pose proof (elem_range _ _ _ Hx) as Hr. destruct HI as (Hm & Hi & Hp). unfold store, pi_arrow. cbn [blk off]. rewrite Hm.
      replace ((0 <=? p) && (p <? Z.of_nat (length (items w)))) with true by lia. cbn [bind]. eexists. split; [reflexivity|].
      split; [cbn [imem items]; now rewrite Nat.eqb_refl|]. split; [exact Hi|]. cbn [pos items]. rewrite put_length. exact Hp.
    - (* ++ *) unfold move in H. destruct (valid w (p + 1)) eqn:Hv; [|discriminate]. injection H as <- <-.
      unfold pi_inc. rewrite (add_ok s w p 1 HI Hv). cbn [bind]. eexists. split; [reflexivity|]. now apply set_ok.
    - destruct (valid w (p + 1)) eqn:Hv; [|discriminate]. injection H as <- <-.
      unfold pi_post_inc, pi_copy. rewrite (add_ok s w p 1 HI Hv). cbn [bind].
      destruct (new_eq (set_it s i (mkP b (p + 1))) (mkW (items w) (put (pos w) i (p + 1))) p (set_ok s w i (p + 1) HI Hv) R) as (s' & -> & HI').
      cbn [pos items] in *. rewrite put_length. eauto.
    - unfold move in H. destruct (valid w (p - 1)) eqn:Hv; [|discriminate]. injection H as <- <-.
      unfold pi_dec. rewrite (add_ok s w p (-1) HI Hv). cbn [bind]. eexists. split; [reflexivity|]. now apply set_ok.
    - destruct (valid w (p - 1)) eqn:Hv; [|discriminate]. injection H as <- <-.
      unfold pi_post_dec, pi_copy. rewrite (add_ok s w p (-1) HI Hv). cbn [bind].
      destruct (new_eq (set_it s i (mkP b (p - 1))) (mkW (items w) (put (pos w) i (p - 1))) p (set_ok s w i (p - 1) HI Hv) R) as (s' & HE & HI').
      change (p + -1) with (p - 1). rewrite HE. cbn [pos items] in *. rewrite put_length. eauto.
    - unfold move in H. destruct (valid w (p + Z.of_N n)) eqn:Hv; [|discriminate]. injection H as <- <-.
      unfold pi_add_to. rewrite (add_ok s w p _ HI Hv). cbn [bind]. eexists. split; [reflexivity|]. now apply set_ok.
    - unfold fresh in H. destruct (valid w (p + Z.of_N n)) eqn:Hv; [|discriminate]. injection H as <- <-.
      unfold pi_add. rewrite (add_ok s w p _ HI Hv). cbn [bind]. destruct (new_eq s w _ HI (valid_range _ _ Hv)) as (s' & -> & HI'). eauto.
    - unfold move in H. destruct (valid w (p - Z.of_N n)) eqn:Hv; [|discriminate]. injection H as <- <-.
      unfold pi_sub_from. rewrite (add_ok s w p _ HI Hv). cbn [bind]. eexists. split; [reflexivity|]. now apply set_ok.
    - unfold fresh in H. destruct (valid w (p - Z.of_N n)) eqn:Hv; [|discriminate]. injection H as <- <-.
      unfold pi_sub. rewrite (add_ok s w p _ HI Hv). cbn [bind]. destruct (new_eq s w _ HI (valid_range _ _ Hv)) as (s' & HE & HI').
      change (p + - Z.of_N n) with (p - Z.of_N n). rewrite HE. eauto.
    - unfold pi_diff. injection H as <- <-. rewrite (diff_ok s w _ _ HI). cbn [bind]. eauto.
    - unfold value in H. destruct (elem (items w) (p + Z.of_N n)) as [x|] eqn:Hx; [|discriminate]. injection H as <- <-.
      unfold pi_index, pi_add. pose proof (elem_range _ _ _ Hx) as Hr.
      rewrite (add_ok s w p _ HI) by (unfold valid; lia). cbn [bind]. unfold pi_deref, pi_arrow. rewrite (load_ok s w _ x HI Hx). cbn [bind]. eauto.
    - injection H as <- <-. unfold pi_lt. rewrite (diff_ok s w _ _ HI). cbn [bind]. exists s. split; auto. do 3 f_equal. lia.
    - injection H as <- <-. unfold pi_gt, ptr_gt. cbn [blk off]. rewrite Nat.eqb_refl. exists s. split; auto. do 3 f_equal. lia.
    - injection H as <- <-. unfold pi_le, pi_gt, ptr_gt. cbn [blk off]. rewrite Nat.eqb_refl. exists s. split; auto. do 3 f_equal. lia.
    - injection H as <- <-. unfold pi_ge, pi_lt. rewrite (diff_ok s w _ _ HI). cbn [bind]. exists s. split; auto. do 3 f_equal. lia.
    - injection H as <- <-. unfold pi_eq, ptr_eq. cbn [blk off]. rewrite Nat.eqb_refl. exists s. split; auto.
    - injection H as <- <-. unfold pi_ne, pi_eq, ptr_eq. cbn [blk off]. rewrite Nat.eqb_refl. exists s. split; auto.
  Qed.

  Lemma irun_ok l : forall s w w' as_, I s w -> existsb assigns l = false -> ispec_run w l = Some (w', as_) ->
    exists s', irun s l = Ret (s', as_) /\ I s' w'.
  Proof.
    induction l as [|o l IH]; intros s w w' as_ HI Ha H; cbn [ispec_run existsb PtrIterModel.irun] in *.
    - injection H as <- <-. eauto.
    - apply orb_false_iff in Ha as [Ha1 Ha2]. destruct (ispec w o) as [[w1 a]|] eqn:Ho; [|discriminate].
      destruct (ispec_run w1 l) as [[w2 as2]|] eqn:Hr; [|discriminate]. injection H as <- <-.
      destruct (istep_ok s w o w1 a HI Ha1 Ho) as (s1 & -> & HI1). cbn [bind].
      destruct (IH s1 w1 w2 as2 HI1 Ha2 Hr) as (s2 & -> & HI2). cbn [bind]. eauto.
  Qed.
End Proof.
