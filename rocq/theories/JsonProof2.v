(** The parser runs exactly the grammar and builds the value of the text. *)
From Verif Require Import Base HashSpec HashModel HashProof HashProof2 HasherModel StringMapModel StringMapProof StringMapProof2
  JsonSpec JsonFaultSpec JsonModel JsonProof JsonFaultShape.
From Coq Require Import List NArith ZArith Bool Lia Permutation.
From Coq.Init Require Import Byte.
From Coq.Strings Require Import Byte.
Import ListNotations.

(** ------------------------------------------------------------------ induction on asts *)

Section AstInd.
  Variable P : ast -> Prop.
  Hypothesis HI : forall z, P (AInt z).
  Hypothesis HB : forall b, P (ABool b).
  Hypothesis HS : forall s, P (AStr s).
  Hypothesis HA : forall l, Forall P l -> P (AArr l).
  Hypothesis HO : forall ms, Forall (fun m => P (snd m)) ms -> P (AObj ms).
  Fixpoint ast_ind2 (a : ast) : P a :=
    match a with
    | AInt z => HI z
    | ABool b => HB b
    | AStr s => HS s
    | AArr l => HA l ((fix go l : Forall P l := match l with [] => Forall_nil _ | x :: l' => Forall_cons x (ast_ind2 x) (go l') end) l)
    | AObj ms => HO ms ((fix go ms : Forall (fun m => P (snd m)) ms :=
        match ms with [] => Forall_nil _ | m :: ms' => Forall_cons m (ast_ind2 (snd m)) (go ms') end) ms)
    end.
End AstInd.

(** ------------------------------------------------------------------ well-formed values *)

Inductive wfj : jvalue -> Prop :=
| W_undef : wfj JUndef
| W_int z : wfj (JInt z)
| W_bool b : wfj (JBool b)
| W_str s : wfj (JStr s)
| W_arr l : (forall v, In v l -> wfj v) -> wfj (JArr l)
| W_obj t : CInv t -> tbl t <> None -> kshort t -> (forall e, In e (tents t) -> wfj (snd e)) -> wfj (JObj t).

Lemma stored_key_kshort k : (N.of_nat (length k) < 65536)%N -> stored_key k = k.
Proof. apply stored_key_short. Qed.

Lemma jcopy_id v : wfj v -> jcopy v = v.
Proof.
  induction 1 as [| | | |l Hl IH|t HC Hb Hk Hv IH]; cbn [jcopy]; auto.
  - f_equal. rewrite <- map_id. apply map_ext_in. auto.
  - f_equal. apply copy_table_same; auto. intros e He. rewrite stored_key_short by (now apply Hk). rewrite IH by auto.
    now destruct e.
Qed.

Lemma sm_new8 {V} : CInv (sm_new (V := V) 8) /\ tbl (sm_new (V := V) 8) <> None /\ kshort (sm_new (V := V) 8) /\ nE (sm_new (V := V) 8) = 0%N /\ tents (sm_new (V := V) 8) = [].
Proof.
  destruct (sm_new_any (V := V) 8 eq_refl) as (H1 & H2 & H3). split; [exact H1|]. split; [intros H; vm_compute in H; discriminate|]. split; [exact H2|]. split; [exact H3|]. vm_compute. reflexivity.
Qed.

Lemma wfj_new_object : wfj new_object.
Proof. destruct (sm_new8 (V := jvalue)) as (H1 & H2 & H3 & _ & H5). unfold new_object. constructor; auto. rewrite H5. intros e []. Qed.

Lemma insert_wf (t : table (bytes * jvalue)) k v : CInv t -> (nE t < 2^28)%N -> kshort t -> wfj v ->
  (forall e, In e (tents t) -> wfj (snd e)) ->
  exists t', sm_set t k v = Ret t' /\ CInv t' /\ tbl t' <> None /\ kshort t' /\ (nE t' <= nE t + 1)%N /\
    (forall e, In e (tents t') -> wfj (snd e)).
Proof.
  intros HC Hn Hk Hv He. unfold sm_set.
  destruct (insert_ok fst bytes_eqb hash_SDBM bytes_eqb_ok t k (stored_key k, v) (fun e => (fst e, v)) HC Hn) as (t' & ex & e & H1 & H2 & _ & _ & H3).
  rewrite H1. cbn [bind]. exists t'. split; auto. split; auto.
  assert (Hc : nE t' = N.of_nat (length (tents t'))) by (now apply CInv_card).
  assert (Hnn : tents t' <> [] -> tbl t' <> None).
  { intros Hx Hy. apply Hx. unfold tents. now rewrite Hy. }
  destruct H3 as [(-> & HE & l1 & e0 & l2 & Ht0 & Hk0 & -> & Ht' & _)|(-> & HE & -> & HP & _)].
  - splits; [| |lia|].
    + apply Hnn. rewrite Ht'. destruct l1; discriminate.
    + intros x Hx. rewrite Ht' in Hx. apply in_app_or in Hx as [Hx|[<-|Hx]].
      * apply Hk. rewrite Ht0. apply in_or_app. auto.
      * cbn [fst]. apply Hk. rewrite Ht0. apply in_or_app. cbn. auto.
      * apply Hk. rewrite Ht0. apply in_or_app. cbn. auto.
    + intros x Hx. rewrite Ht' in Hx. apply in_app_or in Hx as [Hx|[<-|Hx]]; auto.
      * apply He. rewrite Ht0. apply in_or_app. auto.
      * apply He. rewrite Ht0. apply in_or_app. cbn. auto.
  - splits; [| |lia|].
    + apply Hnn. intros Hx. rewrite Hx in HP. apply Permutation_sym, Permutation_nil in HP. discriminate.
    + intros x Hx. apply (Permutation_in _ (Permutation_sym HP)) in Hx as [<-|Hx]; [apply stored_key_length|auto].
    + intros x Hx. apply (Permutation_in _ (Permutation_sym HP)) in Hx as [<-|Hx]; auto.
Qed.

(** ------------------------------------------------------------------ the value of a text *)

Fixpoint fill (kvs : list (bytes * jvalue)) (t : table (bytes * jvalue)) : outcome (table (bytes * jvalue)) :=
  match kvs with
  | [] => Ret t
  | (k, v) :: kvs' => t' <- sm_set t k v ;; fill kvs' t'
  end.

Fixpoint build (a : ast) : outcome jvalue :=
  match a with
  | AInt z => Ret (JInt (reduce256 z))
  | ABool b => Ret (JBool b)
  | AStr s => Ret (JStr s)
  | AArr l => vs <- sequence (map build l) ;; Ret (JArr vs)
  | AObj ms =>
      kvs <- sequence (map (fun m => v <- build (snd m) ;; Ret (fst m, v)) ms) ;;
      t <- fill kvs (sm_new 8) ;;
      Ret (JObj t)
  end.

(** ------------------------------------------------------------------ the callback stack *)

Definition cell_ok (n : nat) (p : jvalue * bytes) : Prop :=
  wfj (fst p) /\ match fst p with JObj t => (nE t + N.of_nat n <= 2^28)%N | _ => True end.
Definition cbok (n : nat) (c : cbs) : Prop := Forall (cell_ok n) (stack c).

Lemma cell_ok_mono n m p : m <= n -> cell_ok n p -> cell_ok m p.
Proof. intros Hm [H1 H2]. split; auto. destruct (fst p); auto. lia. Qed.

Lemma cbok_mono n m c : m <= n -> cbok n c -> cbok m c.
Proof. intros Hm. apply Forall_impl. intros p. now apply cell_ok_mono. Qed.

Lemma set_parent_ok n c v : cbok (S n) c -> wfj v -> exists c', set_parent c v = Ret c' /\ cbok n c'.
Proof.
  intros Hc Hv. unfold set_parent. rewrite !jcopy_id by (rewrite ?jcopy_id; auto).
  unfold cbok in *. destruct (stack c) as [|[p key] st] eqn:E.
  - eexists. split; [reflexivity|]. constructor.
  - inversion Hc as [|x y [Hp Hn] Hst]; subst. cbn [fst] in *.
    assert (Hst' : Forall (cell_ok n) st) by (eapply Forall_impl; [|exact Hst]; intros q; apply cell_ok_mono; lia).
    destruct p; try (eexists; split; [reflexivity|]; rewrite E; constructor; auto; split; auto; fail).
    + eexists. split; [reflexivity|]. cbn. constructor; auto. split; cbn; auto. constructor. inversion Hp; subst.
      intros x Hx. apply in_app_or in Hx as [Hx|[<-|[]]]; auto.
    + inversion Hp as [| | | | |t' HC Hb Hk Hw]; subst.
      destruct (insert_wf t key v HC) as (t' & H1 & H2 & H3 & H4 & H5 & H6); auto; [lia|].
      rewrite H1. cbn [bind]. eexists. split; [reflexivity|]. cbn. constructor; auto. split; cbn; [now constructor|]. lia.
Qed.

(** ------------------------------------------------------------------ the parser *)

Definition layout_lits (lay : layout) (b : bool) : bool :=
  if b then addr_ok (a_end lay) (a_rue lay) 3 else addr_ok (a_end lay) (a_alse lay) 4.

(** the parser has thrown *)
Ltac thrown := eexists; split; [|solve [reflexivity | eassumption | cbn [bind]; eassumption]].

Section Parser.
  Variable lay : layout.
  Notation L := (layout_lits lay).

  Definition PV (n : nat) (pv : bytes -> cbs -> outcome (bytes * cbs)) : Prop :=
    forall s c, length s < n -> cbok (length s) c ->
      (exists a r v c', gval L s a r /\ build a = Ret v /\ wfj v /\ set_parent c v = Ret c' /\ pv s c = Ret (r, c')) \/
      ((forall a r, ~ gval L s a r) /\ exists msg, bad_val L s msg /\ pv s c = Throw (ParserError msg)).

  Section Loops.
    Variable n : nat.
    Variable pv : bytes -> cbs -> outcome (bytes * cbs).
    Hypothesis Hpv : PV n pv.

    Definition elems_end (f : nat) (s : bytes) (c : cbs) : outcome (bytes * cbs) :=
      '(s, c) <- elems_loop pv f s c ;; s <- expect x5d no_bracket s ;; Ret (s, c).

    Lemma elems_ok f : forall s vs key st rt, length s < f -> length s < n ->
      cbok (length s) (mkC ((JArr vs, key) :: st) rt) ->
      (exists l r vs', gelems L s l r /\ sequence (map build l) = Ret vs' /\ (forall v, In v vs' -> wfj v) /\
         elems_end f s (mkC ((JArr vs, key) :: st) rt) = Ret (r, mkC ((JArr (vs ++ vs'), key) :: st) rt)) \/
      ((forall l r, ~ gelems L s l r) /\ exists msg, bad_elems L s msg /\ elems_end f s (mkC ((JArr vs, key) :: st) rt) = Throw (ParserError msg)).
    Proof.
      Ltac bad_elems_tac := apply bad_elems_shape; solve [left; assumption |
        match goal with Hg : gval _ ?s ?a ?r, Et : drop_ws ?r = _ |- _ => right; exists a, r; split; [exact Hg|]; rewrite Et; unfold after_bad_elem end;
        repeat match goal with E : beqb _ _ = _ |- _ => rewrite E end; first [reflexivity | assumption]].
      induction f as [|f IH]; intros s vs key st rt Hf Hn Hc; [lia|].
      unfold elems_end. cbn [elems_loop].
      destruct (Hpv s _ Hn Hc) as [(a & r & v & c' & Hg & Hb & Hw & Hset & Hp)|(Hno & msg & Hbad & Hp)]; rewrite Hp; cbn [bind].
      2:{ right. split; [|thrown; bad_elems_tac]. intros l r H. apply gelems_shape in H as (a & s1 & l' & H & _). eapply Hno; eauto. }
      pose proof (gval_len _ _ _ _ Hg) as Hl. pose proof (drop_ws_length r) as Hd.
      rewrite skip_ws_eq. cbn [bind]. rewrite have_eq by discriminate.
      assert (Hset' : set_parent (mkC ((JArr vs, key) :: st) rt) v = Ret (mkC ((JArr (vs ++ [v]), key) :: st) rt)).
      { unfold set_parent. cbn [stack root]. rewrite !jcopy_id by (rewrite ?jcopy_id; auto). reflexivity. }
      rewrite Hset' in Hset. injection Hset as <-.
      destruct (drop_ws r) as [|ch t] eqn:Et; cbn [bind].
      { right. rewrite expect_eq by discriminate. split; [|thrown; bad_elems_tac]. intros l q H. apply gelems_shape in H as (a' & s1 & l' & H & _ & Ha).
        destruct (gval_det _ _ _ _ _ _ Hg H) as [<- <-]. rewrite Et in Ha. exact Ha. }
      cbn [length] in Hd.
      destruct (beqb ch x2c) eqn:Ec; cbn [bind].
      - destruct (IH t (vs ++ [v]) key st rt) as [(l & q & vs' & H1 & H2 & H3 & H4)|(H1 & msg & Hbad & H2)]; try lia.
        + destruct (set_parent_ok (length t) _ v (cbok_mono (length s) (S (length t)) _ ltac:(lia) Hc) Hw) as (c'' & Hs'' & Hc'').
          rewrite Hset' in Hs''. injection Hs'' as <-. exact Hc''.
        + left. exists (a :: l), q, (v :: vs'). splits.
          * apply gelems_shape. exists a, r, l. splits; auto. rewrite Et. cbn. now rewrite Ec.
          * cbn [map sequence]. rewrite Hb. cbn [bind]. rewrite H2. reflexivity.
          * intros x [<-|Hx]; auto.
          * unfold elems_end in H4. rewrite H4. now rewrite <- app_assoc.
        + right. split; [|thrown; bad_elems_tac]. intros l q H. apply gelems_shape in H as (a' & s1 & l' & H & -> & Ha).
          destruct (gval_det _ _ _ _ _ _ Hg H) as [<- <-]. rewrite Et in Ha. cbn in Ha. rewrite Ec in Ha. eapply H1; eauto.
      - rewrite expect_eq by discriminate. destruct (beqb ch x5d) eqn:Ed; cbn [bind].
        + left. exists [a], t, [v]. splits; auto.
          * apply gelems_shape. exists a, r, []. splits; auto. rewrite Et. cbn. rewrite Ec, Ed. auto.
          * cbn [map sequence]. rewrite Hb. reflexivity.
          * intros x [<-|[]]; auto.
        + right. split; [|thrown; bad_elems_tac]. intros l q H. apply gelems_shape in H as (a' & s1 & l' & H & -> & Ha).
          destruct (gval_det _ _ _ _ _ _ Hg H) as [<- <-]. rewrite Et in Ha. cbn in Ha. rewrite Ec, Ed in Ha. exact Ha.
    Qed.

    Definition members_end (f : nat) (s : bytes) (c : cbs) : outcome (bytes * cbs) :=
      '(s, c) <- members_loop pv f s c ;; s <- expect x7d no_brace s ;; Ret (s, c).

    Lemma key_ok s c v k0 st : stack c = (v, k0) :: st ->
      (exists k s0, gkey s k s0 /\
        ('(b, s, c) <- parse_string true s c ;;
         if b then s <- skip_ws s ;; s <- expect x3a no_colon s ;; Ret (s, c) else Throw (ParserError no_key)) = Ret (s0, mkC ((v, k) :: st) (root c))) \/
      ((forall k s0, ~ gkey s k s0) /\ exists msg, bad_key s msg /\
        ('(b, s, c) <- parse_string true s c ;;
         if b then s <- skip_ws s ;; s <- expect x3a no_colon s ;; Ret (s, c) else Throw (ParserError no_key)) = Throw (ParserError msg)).
    Proof.
      Ltac bad_key_tac := apply bad_key_shape; solve
        [ match goal with Hbad : bad_chars ?t _, Et : drop_ws _ = _ |- _ => right; exists t; split; [exact Et|left; exact Hbad] end
        | match goal with Hg : gchars ?t ?k ?r, Et : drop_ws _ = x22 :: ?t, Eu : drop_ws ?r = _ |- _ => right; exists t; split; [exact Et|]; right; exists k, r; split; [exact Hg|]; split; [rewrite Eu; congruence|reflexivity] end
        | match goal with Et : drop_ws _ = _ |- _ => left; split; [reflexivity|rewrite Et; congruence] end ].
      intros Hst. unfold parse_string. rewrite skip_ws_eq. cbn [bind]. rewrite have_eq by discriminate.
      destruct (drop_ws s) as [|ch t] eqn:Et; cbn [bind].
      { right. split; [|thrown; bad_key_tac]. intros k s0 H. apply gkey_shape in H as (s1 & s2 & H & _). congruence. }
      destruct (beqb_spec ch x22) as [->|Hq]; cbn [bind].
      2:{ right. split; [|thrown; bad_key_tac]. intros k s0 H. apply gkey_shape in H as (s1 & s2 & H & _). congruence. }
      destruct (string_loop_ok (S (length t)) t []) as [(cs & r & Hg & ->)|(Hno & msg & Hbad & ->)]; [lia| |]; cbn [bind].
      2:{ right. split; [|thrown; bad_key_tac]. intros k s0 H. apply gkey_shape in H as (s1 & s2 & H & H2 & _).
          rewrite Et in H. injection H as <-. eapply Hno; eauto. }
      unfold on_string. rewrite Hst. cbn [bind app]. rewrite skip_ws_eq. cbn [bind]. rewrite expect_eq by discriminate.
      destruct (drop_ws r) as [|ch u] eqn:Eu; cbn [bind].
      { right. split; [|thrown; bad_key_tac]. intros k s0 H. apply gkey_shape in H as (s1 & s2 & H & H2 & H3).
        rewrite Et in H. injection H as <-. destruct (gchars_det _ _ _ Hg _ _ H2) as [<- <-]. congruence. }
      destruct (beqb_spec ch x3a) as [->|Hc]; cbn [bind].
      - left. exists cs, u. split; auto. apply gkey_shape. eauto.
      - right. split; [|thrown; bad_key_tac]. intros k s0 H. apply gkey_shape in H as (s1 & s2 & H & H2 & H3).
        rewrite Et in H. injection H as <-. destruct (gchars_det _ _ _ Hg _ _ H2) as [<- <-]. congruence.
    Qed.

    Lemma members_ok f : forall s t key st rt, length s < f -> length s < n ->
      cbok (length s) (mkC ((JObj t, key) :: st) rt) ->
      (exists ms r kvs t' key', gmembers L s ms r /\ sequence (map (fun m => v <- build (snd m) ;; Ret (fst m, v)) ms) = Ret kvs /\
         fill kvs t = Ret t' /\ wfj (JObj t') /\
         members_end f s (mkC ((JObj t, key) :: st) rt) = Ret (r, mkC ((JObj t', key') :: st) rt)) \/
      ((forall ms r, ~ gmembers L s ms r) /\ exists msg, bad_members L s msg /\ members_end f s (mkC ((JObj t, key) :: st) rt) = Throw (ParserError msg)).
    Proof.
      Ltac bad_members_tac := apply bad_members_shape; solve [left; assumption | right; eexists _, _; split; [eassumption|]; left; assumption |
        match goal with Hk : gkey _ ?k ?s0, Hg : gval _ ?s0 ?a ?r, Et : drop_ws ?r = _ |- _ =>
          right; exists k, s0; split; [exact Hk|]; right; exists a, r; split; [exact Hg|]; rewrite Et; unfold after_bad_member end;
        repeat match goal with E : beqb _ _ = _ |- _ => rewrite E end; first [reflexivity | assumption]].
      induction f as [|f IH]; intros s t key st rt Hf Hn Hc; [lia|].
      unfold members_end. cbn [members_loop].
      assert (Heq : forall (m : outcome step_result) (k : bytes * cbs -> outcome (bytes * cbs)),
        bind m (fun '(b, s, c) => if b then s <- skip_ws s ;; s <- expect x3a no_colon s ;; k (s, c) else Throw (ParserError no_key)) =
        bind (bind m (fun '(b, s, c) => if b then s <- skip_ws s ;; s <- expect x3a no_colon s ;; Ret (s, c) else Throw (ParserError no_key))) k).
      { intros m k. destruct m as [[[[] s'] c]| | | |]; cbn [bind]; auto. destruct (skip_ws s'); cbn [bind]; auto. destruct (expect x3a no_colon a); auto. }
      rewrite (Heq _ (fun '(s, c) => '(s, c) <- pv s c ;; s <- skip_ws s ;; '(b, s) <- have x2c s ;; if b then members_loop pv f s c else Ret (s, c))).
      clear Heq.
      destruct (key_ok s (mkC ((JObj t, key) :: st) rt) (JObj t) key st eq_refl) as [(k & s0 & Hk & Hp)|(Hno & msg & Hbad & Hp)]; rewrite Hp; clear Hp; cbn [bind root].
      2:{ right. split; [|thrown; bad_members_tac]. intros l r H. apply gmembers_shape in H as (k & s0 & a & s1 & l' & H & _). eapply Hno; eauto. }
      pose proof (gkey_len _ _ _ Hk) as Hlk.
      assert (Hc0 : cbok (length s) (mkC ((JObj t, k) :: st) rt)).
      { inversion Hc; subst. constructor; auto. }
      destruct (Hpv s0 (mkC ((JObj t, k) :: st) rt)) as [(a & r & v & c' & Hg & Hb & Hw & Hset & Hp)|(Hno & msg & Hbad & Hp)]; [lia| | |].
      { eapply cbok_mono; [|exact Hc0]. lia. }
      2:{ rewrite Hp; cbn [bind]. right. split; [|thrown; bad_members_tac]. intros l r H. apply gmembers_shape in H as (k' & s0' & a & s1 & l' & H & H' & _).
          destruct (gkey_det _ _ _ _ _ Hk H) as [<- <-]. eapply Hno; eauto. }
      rewrite Hp; cbn [bind].
      pose proof (gval_len _ _ _ _ Hg) as Hl. pose proof (drop_ws_length r) as Hd.
      destruct (set_parent_ok (length s0) _ v (cbok_mono (length s) (S (length s0)) _ ltac:(lia) Hc0) Hw) as (c'' & Hs'' & Hc'').
      rewrite Hset in Hs''. injection Hs'' as <-.
      assert (Hset' : exists t', sm_set t k v = Ret t' /\ c' = mkC ((JObj t', k) :: st) rt).
      { unfold set_parent in Hset. cbn [stack root] in Hset. rewrite !jcopy_id in Hset by (rewrite ?jcopy_id; auto).
        destruct (sm_set t k v) as [t'| | | |]; cbn in Hset; try discriminate. injection Hset as <-. eauto. }
      destruct Hset' as (t' & Hsm & ->).
      rewrite skip_ws_eq. cbn [bind]. rewrite have_eq by discriminate.
      destruct (drop_ws r) as [|ch u] eqn:Et; cbn [bind].
      { right. rewrite expect_eq by discriminate. split; [|thrown; bad_members_tac]. intros l q H. apply gmembers_shape in H as (k' & s0' & a' & s1 & l' & H & H' & -> & Ha).
        destruct (gkey_det _ _ _ _ _ Hk H) as [<- <-].
        destruct (gval_det _ _ _ _ _ _ Hg H') as [<- <-]. rewrite Et in Ha. exact Ha. }
      cbn [length] in Hd.
      destruct (beqb ch x2c) eqn:Ec; cbn [bind].
      - destruct (IH u t' k st rt) as [(l & q & kvs & t2 & key' & H1 & H2 & H3 & H4 & H5)|(H1 & msg & Hbad & H2)]; try lia.
        + eapply cbok_mono; [|exact Hc'']. lia.
        + left. exists ((k, a) :: l), q, ((k, v) :: kvs), t2, key'. splits; auto.
          * apply gmembers_shape. exists k, s0, a, r, l. splits; auto. rewrite Et. cbn. now rewrite Ec.
          * cbn [map sequence fst snd]. rewrite Hb. cbn [bind]. rewrite H2. reflexivity.
          * cbn [fill]. rewrite Hsm. exact H3.
        + right. split; [|thrown; bad_members_tac]. intros l q H. apply gmembers_shape in H as (k' & s0' & a' & s1 & l' & H & H' & -> & Ha).
          destruct (gkey_det _ _ _ _ _ Hk H) as [<- <-].
          destruct (gval_det _ _ _ _ _ _ Hg H') as [<- <-]. rewrite Et in Ha. cbn in Ha. rewrite Ec in Ha. eapply H1; eauto.
      - rewrite expect_eq by discriminate. destruct (beqb ch x7d) eqn:Ed; cbn [bind].
        + left. exists [(k, a)], u, [(k, v)], t', k. splits; auto.
          * apply gmembers_shape. exists k, s0, a, r, []. splits; auto. rewrite Et. cbn. rewrite Ec, Ed. auto.
          * cbn [map sequence fst snd]. rewrite Hb. reflexivity.
          * cbn [fill]. rewrite Hsm. reflexivity.
          * inversion Hc'' as [|x y [Hx _] _]; subst. exact Hx.
        + right. split; [|thrown; bad_members_tac]. intros l q H. apply gmembers_shape in H as (k' & s0' & a' & s1 & l' & H & H' & -> & Ha).
          destruct (gkey_det _ _ _ _ _ Hk H) as [<- <-].
          destruct (gval_det _ _ _ _ _ _ Hg H') as [<- <-]. rewrite Et in Ha. cbn in Ha. rewrite Ec, Ed in Ha. exact Ha.
    Qed.
  End Loops.

  Lemma end_container_eq v key st rt : wfj v -> end_container (mkC ((v, key) :: st) rt) = set_parent (mkC st rt) v.
  Proof. intros Hv. unfold end_container. cbn [stack root]. now rewrite jcopy_id. Qed.

  Lemma set_parent_ex n c v : cbok (S n) c -> wfj v -> exists c', set_parent c v = Ret c'.
  Proof. intros H1 H2. destruct (set_parent_ok n c v H1 H2) as (c' & H & _). eauto. Qed.

  Ltac nogval Hd := let H := fresh "H" in intros ? ? H; apply gval_core in H; rewrite Hd in H; cbn [core] in H;
    repeat match type of H with context [beqb ?c ?x] => (rewrite beqb_refl in H || (rewrite (beqb_neq c x) in H by (congruence || discriminate))) end.

  Ltac bad_core Hd := apply core_bad_val; rewrite Hd; cbn [core_bad];
    repeat match goal with |- context [beqb ?c ?x] => (rewrite beqb_refl || (rewrite (beqb_neq c x) by (congruence || discriminate))) end.

  Lemma cbs_eta c : mkC (stack c) (root c) = c.
  Proof. now destruct c. Qed.

  Lemma parse_value_ok f : (N.of_nat f <= 2^28)%N -> PV f (parse_value lay f).
  Proof.
    induction f as [|f IH]; intros Hbig s c Hs Hc; [lia|].
    assert (IH' : PV f (parse_value lay f)) by (apply IH; lia). clear IH.
    cbn [parse_value]. unfold parse_object. rewrite skip_ws_eq. cbn [bind]. rewrite have_eq by discriminate.
    pose proof (drop_ws_length s) as Hl.
    destruct (drop_ws s) as [|ch t] eqn:Ed.
    { right. split; [nogval Ed; auto|].
      cbn [bind]. unfold parse_array, parse_string, parse_boolean, parse_number.
      repeat (rewrite skip_ws_eq; cbn [bind drop_ws]; rewrite ?have_eq by discriminate; cbn [bind]).
      thrown. bad_core Ed. reflexivity. }
    cbn [length] in Hl.
    assert (Hws : wsb ch = false).
    { pose proof (drop_ws_idem s) as Hi. rewrite Ed in Hi. cbn in Hi. destruct (wsb ch) eqn:E; auto.
      pose proof (drop_ws_length t). rewrite Hi in H. cbn in H. lia. }
    destruct (beqb_spec ch x7b) as [->|N1]; cbn [bind].
    { rewrite skip_ws_eq. cbn [bind]. rewrite have_eq by discriminate. pose proof (drop_ws_length t) as Hl2.
      destruct (sm_new8 (V := jvalue)) as (S1 & S2 & S3 & S4 & S5).
      assert (Hc' : cbok (length t) (begin_object c)).
      { unfold begin_object. rewrite jcopy_id by apply wfj_new_object. constructor; cbn [stack].
        - split; [apply wfj_new_object|]. cbn [fst]. unfold new_object. rewrite S4. lia.
        - eapply cbok_mono; [|exact Hc]. lia. }
      assert (Hdone : forall v, wfj v -> exists c', set_parent c v = Ret c').
      { intros v Hv. eapply (set_parent_ex (length t)); auto. eapply cbok_mono; [|exact Hc]. lia. }
      destruct (drop_ws t) as [|ch2 u] eqn:E2; cbn [bind].
      { (* unterminated *) assert (Hm : members_loop (parse_value lay f) 1 [] (begin_object c) = Throw (ParserError no_key)).
        { cbn [members_loop]. unfold parse_string. rewrite skip_ws_eq. cbn [bind drop_ws]. rewrite have_eq by discriminate. reflexivity. }
        change (S (length (@nil byte))) with 1. rewrite Hm. right. split; [|thrown; bad_core Ed; split; [rewrite E2; congruence|]; apply bad_members_shape; left; apply bad_key_shape; left; split; [reflexivity|rewrite E2; congruence]]. nogval Ed.
        destruct H as [(s' & H & _)|(ms & _ & H)]; [congruence|]. apply gmembers_shape in H as (k & s0 & a' & s1 & l' & H & _).
        apply gkey_shape in H as (s3 & s2 & H & _). congruence. }
      destruct (beqb_spec ch2 x7d) as [->|N2]; cbn [bind].
      { unfold begin_object. rewrite jcopy_id by apply wfj_new_object. rewrite end_container_eq by apply wfj_new_object.
        rewrite cbs_eta. destruct (Hdone new_object wfj_new_object) as (c' & Hset). rewrite Hset. cbn [bind].
        left. exists (AObj []), u, new_object, c'. splits; auto; [|apply wfj_new_object].
        apply core_gval. rewrite Ed. cbn. left. eauto. }
      unfold begin_object in *. rewrite jcopy_id in * by apply wfj_new_object. cbn [length] in Hl2.
      assert (Hme : forall n s c (k : bytes * cbs -> outcome step_result),
         bind (members_loop (parse_value lay f) n s c) (fun '(s, c) => s <- expect x7d no_brace s ;; k (s, c)) = bind (members_end (parse_value lay f) n s c) k).
      { intros n s1 c1 k. unfold members_end. destruct (members_loop (parse_value lay f) n s1 c1) as [[s' c0]| | | |]; cbn [bind]; auto. destruct (expect x7d no_brace s'); auto. }
      rewrite (Hme _ _ _ (fun '(s, c) => c <- end_container c ;; Ret (true, s, c))). clear Hme.
      destruct (members_ok f _ IH' (S (length (ch2 :: u))) (ch2 :: u) (sm_new 8) [] (stack c) (root c)) as [(ms & r & kvs & t' & key' & H1 & H2 & H3 & H4 & H5)|(H1 & msg & Hbad & H2)].
      { cbn [length]. lia. }
      { cbn [length]. lia. }
      { eapply cbok_mono; [|exact Hc']. cbn [length]. lia. }
      - unfold new_object. rewrite H5. cbn [bind]. rewrite end_container_eq by auto. rewrite cbs_eta.
        destruct (Hdone _ H4) as (c' & Hset). rewrite Hset. cbn [bind].
        left. exists (AObj ms), r, (JObj t'), c'. splits; auto.
        + apply core_gval. rewrite Ed. cbn. right. exists ms. split; auto.
          apply gmembers_shape. apply gmembers_shape in H1 as (k & s0 & a & s1 & l' & Hk & H1). exists k, s0, a, s1, l'. split; auto.
          apply gkey_shape. apply gkey_shape in Hk as (q1 & q2 & Hk & Hk2). exists q1, q2. split; auto. rewrite E2.
          rewrite <- E2 in Hk. rewrite drop_ws_idem in Hk. rewrite E2 in Hk. exact Hk.
        + cbn [build]. rewrite H2. cbn [bind]. rewrite H3. reflexivity.
      - unfold new_object. rewrite H2. cbn [bind]. right. split; [|thrown; bad_core Ed; split; [rewrite E2; congruence|]; apply bad_members_drop; rewrite E2; exact Hbad]. nogval Ed.
        destruct H as [(s' & H & _)|(ms & _ & H)]; [congruence|]. apply (H1 ms r).
        apply gmembers_shape. apply gmembers_shape in H as (k & s0 & a' & s1 & l' & Hk & H). exists k, s0, a', s1, l'. split; auto.
        apply gkey_shape. apply gkey_shape in Hk as (q1 & q2 & Hk & Hk2). exists q1, q2. split; auto.
        rewrite <- E2. rewrite drop_ws_idem. exact Hk. }
    unfold parse_array. rewrite skip_ws_eq. cbn [bind]. rewrite drop_ws_cons by auto. rewrite have_eq by discriminate.
    destruct (beqb_spec ch x5b) as [->|N2]; cbn [bind].
    { rewrite skip_ws_eq. cbn [bind]. rewrite have_eq by discriminate. pose proof (drop_ws_length t) as Hl2.
      assert (Wn : wfj (JArr [])) by (constructor; intros v []).
      assert (Hc' : cbok (length t) (begin_array c)).
      { unfold begin_array. constructor; cbn [stack].
        - split; cbn; auto.
        - eapply cbok_mono; [|exact Hc]. lia. }
      assert (Hdone : forall v, wfj v -> exists c', set_parent c v = Ret c').
      { intros v Hv. eapply (set_parent_ex (length t)); auto. eapply cbok_mono; [|exact Hc]. lia. }
      destruct (drop_ws t) as [|ch2 u] eqn:E2; cbn [bind].
      { (* unterminated *)
        assert (Hgn : forall a r, ~ gval L [] a r). { intros a r H. apply gval_core in H. exact H. }
        assert (Hf0 : 0 < f) by lia.
        destruct (IH' [] (begin_array c)) as [(a & r & v & c' & Hg & _)|(_ & msg & Hbad & Hp)]; [exact Hf0| | |].
        { eapply cbok_mono; [|exact Hc']. cbn. lia. }
        { exfalso. eapply Hgn; eauto. }
        change (S (length (@nil byte))) with 1. cbn [elems_loop]. rewrite Hp. cbn [bind].
        right. split; [|thrown; bad_core Ed; split; [rewrite E2; congruence|]; apply bad_elems_drop; rewrite E2; apply bad_elems_shape; left; exact Hbad]. nogval Ed.
        destruct H as [(s' & H & _)|(ms & _ & H)]; [congruence|]. apply gelems_shape in H as (a' & s1 & l' & H & _).
        apply gval_core in H. rewrite E2 in H. exact H. }
      destruct (beqb_spec ch2 x5d) as [->|N3]; cbn [bind].
      { unfold begin_array. cbn [jcopy new_array map]. rewrite end_container_eq by auto.
        rewrite cbs_eta. destruct (Hdone _ Wn) as (c' & Hset). rewrite Hset. cbn [bind].
        left. exists (AArr []), u, (JArr []), c'. splits; auto.
        apply core_gval. rewrite Ed. cbn. left. eauto. }
      unfold begin_array in *. cbn [jcopy new_array map] in *. cbn [length] in Hl2.
      assert (Hme : forall n s c (k : bytes * cbs -> outcome step_result),
         bind (elems_loop (parse_value lay f) n s c) (fun '(s, c) => s <- expect x5d no_bracket s ;; k (s, c)) = bind (elems_end (parse_value lay f) n s c) k).
      { intros n s1 c1 k. unfold elems_end. destruct (elems_loop (parse_value lay f) n s1 c1) as [[s' c0]| | | |]; cbn [bind]; auto. destruct (expect x5d no_bracket s'); auto. }
      rewrite (Hme _ _ _ (fun '(s, c) => c <- end_container c ;; Ret (true, s, c))). clear Hme.
      assert (Hge : forall l r, gelems L t l r <-> gelems L (ch2 :: u) l r).
      { intros l r. rewrite !gelems_shape. rewrite <- E2.
        split; intros (a & s1 & l' & Hv & Hrest); exists a, s1, l'; (split; [|exact Hrest]); apply core_gval; apply gval_core in Hv.
        - rewrite drop_ws_idem. exact Hv.
        - rewrite drop_ws_idem in Hv. exact Hv. }
      destruct (elems_ok f _ IH' (S (length (ch2 :: u))) (ch2 :: u) [] [] (stack c) (root c)) as [(l & r & vs' & H1 & H2 & H3 & H4)|(H1 & msg & Hbad & H2)].
      { cbn [length]. lia. }
      { cbn [length]. lia. }
      { eapply cbok_mono; [|exact Hc']. cbn [length]. lia. }
      - cbn [app] in H4. rewrite H4. cbn [bind].
        assert (Wv : wfj (JArr vs')) by (now constructor).
        rewrite end_container_eq by auto. rewrite cbs_eta.
        destruct (Hdone _ Wv) as (c' & Hset). rewrite Hset. cbn [bind].
        left. exists (AArr l), r, (JArr vs'), c'. splits; auto.
        + apply core_gval. rewrite Ed. cbn. right. exists l. split; auto. now apply Hge.
        + cbn [build]. rewrite H2. reflexivity.
      - rewrite H2. cbn [bind]. right. split; [|thrown; bad_core Ed; split; [rewrite E2; congruence|]; apply bad_elems_drop; rewrite E2; exact Hbad]. nogval Ed.
        destruct H as [(s' & H & _)|(l & _ & H)]; [congruence|]. apply (H1 l r). now apply Hge. }
    assert (Hc' : cbok (S (length t)) c) by (eapply cbok_mono; [|exact Hc]; lia).
    unfold parse_string. rewrite skip_ws_eq. cbn [bind]. rewrite drop_ws_cons by auto. rewrite have_eq by discriminate.
    destruct (beqb_spec ch x22) as [->|N3]; cbn [bind].
    { destruct (string_loop_ok (S (length t)) t []) as [(cs & r & Hg & ->)|(Hno & msg & Hbad & ->)]; [lia| |]; cbn [bind app].
      - unfold on_string. destruct (set_parent_ex _ _ (JStr cs) Hc' (W_str cs)) as (c' & Hset). rewrite Hset. cbn [bind].
        left. exists (AStr cs), r, (JStr cs), c'. splits; auto; [|constructor]. apply core_gval. rewrite Ed. cbn. eauto.
      - right. split; [|thrown; bad_core Ed; exact Hbad]. nogval Ed. destruct H as (cs & _ & H). eapply Hno; eauto. }
    unfold parse_boolean. rewrite skip_ws_eq. cbn [bind]. rewrite drop_ws_cons by auto. rewrite have_eq by discriminate.
    destruct (beqb_spec ch x74) as [->|N4]; cbn [bind].
    { destruct (expect_pat_ok (a_end lay) (a_rue lay) [x72; x75; x65] no_true t) as [(r & Ha & -> & ->)|(Hno & ->)]; cbn [bind].
      { repeat constructor; discriminate. }
      { cbn. lia. }
      - unfold on_boolean. destruct (set_parent_ex _ _ (JBool true) Hc' (W_bool true)) as (c' & Hset). rewrite Hset. cbn [bind].
        left. exists (ABool true), r, (JBool true), c'. splits; auto; [|constructor]. apply core_gval. rewrite Ed. cbn. auto.
      - right. split; [|thrown; bad_core Ed; split; [exact Hno|reflexivity]]. nogval Ed. destruct H as (HL & Ht & _). destruct Hno as [Hno|Hno].
        + cbn in HL, Hno. congruence.
        + eapply Hno; eauto. }
    rewrite have_eq by discriminate.
    destruct (beqb_spec ch x66) as [->|N5]; cbn [bind].
    { destruct (expect_pat_ok (a_end lay) (a_alse lay) [x61; x6c; x73; x65] no_false t) as [(r & Ha & -> & ->)|(Hno & ->)]; cbn [bind].
      { repeat constructor; discriminate. }
      { cbn. lia. }
      - unfold on_boolean. destruct (set_parent_ex _ _ (JBool false) Hc' (W_bool false)) as (c' & Hset). rewrite Hset. cbn [bind].
        left. exists (ABool false), r, (JBool false), c'. splits; auto; [|constructor]. apply core_gval. rewrite Ed. cbn. auto.
      - right. split; [|thrown; bad_core Ed; split; [exact Hno|reflexivity]]. nogval Ed. destruct H as (HL & Ht & _). destruct Hno as [Hno|Hno].
        + cbn in HL, Hno. congruence.
        + eapply Hno; eauto. }
    unfold parse_number. rewrite skip_ws_eq. cbn [bind]. rewrite drop_ws_cons by auto. rewrite have_if_eq by reflexivity.
    assert (Hsc : forall s buf (k : bool * bytes * bytes -> outcome step_result),
      bind (have_if (fun h => beqb h x30) s buf) (fun '(zero, s, str) => bind (if zero then Ret (true, s, str) else parse_int_part s str) k) =
      bind (scan_nat s buf) k).
    { intros s' buf k. unfold scan_nat. destruct (have_if (fun h => beqb h x30) s' buf) as [[[z s2] b2]| | | |]; reflexivity. }
    destruct (beqb_spec ch x2d) as [->|N6]; cbn [bind].
    { rewrite Hsc. destruct (scan_nat_ok t ([] ++ [x2d])) as [(tx & r & Ht & ->)|(Hno & ->)]; cbn [bind app].
      - unfold on_number. rewrite s256_neg.
        destruct (set_parent_ex _ _ (JInt (reduce256 (- Z.of_N (decimal tx)))) Hc' (W_int _)) as (c' & Hset). rewrite Hset. cbn [bind].
        left. exists (AInt (- Z.of_N (decimal tx))), r, (JInt (reduce256 (- Z.of_N (decimal tx)))), c'. splits; auto; [|constructor].
        apply core_gval. rewrite Ed. cbn. eexists. split; [reflexivity|]. now apply nat_text_gnat.
      - right. split; [|thrown; bad_core Ed; split; [intros Hd; eapply no_gnat; eauto|reflexivity]]. nogval Ed. destruct H as (m & _ & H). eapply Hno; eauto. }
    rewrite Hsc. destruct (scan_nat_ok (ch :: t) []) as [(tx & r & Ht & ->)|(Hno & ->)]; cbn [bind app].
    - unfold on_number. rewrite (s256_pos _ _ _ Ht).
      destruct (set_parent_ex _ _ (JInt (reduce256 (Z.of_N (decimal tx)))) Hc' (W_int _)) as (c' & Hset). rewrite Hset. cbn [bind].
      left. exists (AInt (Z.of_N (decimal tx))), r, (JInt (reduce256 (Z.of_N (decimal tx)))), c'. splits; auto; [|constructor].
      apply core_gval. rewrite Ed. cbn. rewrite !beqb_neq by auto. eexists. split; [reflexivity|]. now apply nat_text_gnat.
    - right. split; [|thrown; bad_core Ed; split; [intros Hd; eapply no_gnat; eauto; exists ch, t; auto|reflexivity]]. nogval Ed. destruct H as (m & _ & H). eapply Hno; eauto.
  Qed.

  Lemma parse_ok s : (N.of_nat (length s) < 2^28)%N ->
    (exists a r v, gval L s a r /\ build a = Ret v /\ wfj v /\ parse lay s = Ret (true, v)) \/
    ((forall a r, ~ gval L s a r) /\ parse lay s = Ret (false, JUndef)).
  Proof.
    intros Hs. destruct (parse_value_ok (S (length s)) ltac:(lia) s (mkC [] JUndef)) as [(a & r & v & c' & Hg & Hb & Hw & Hset & Hp)|(Hno & msg & Hbad & Hp)].
    - lia.
    - constructor.
    - left. exists a, r, v. splits; auto. unfold parse. rewrite Hp. unfold set_parent in Hset. cbn [stack] in Hset.
      rewrite !jcopy_id in Hset by (rewrite ?jcopy_id; auto). injection Hset as <-. reflexivity.
    - right. split; auto. unfold parse. now rewrite Hp.
  Qed.
End Parser.
