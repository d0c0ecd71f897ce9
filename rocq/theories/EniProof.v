(** Lemmas about EniBase. *)
From Verif Require Import Base HashModel HashProof StringMapModel JsonSpec JsonModel JsonDenotes JsonProof JsonProof2 JsonProof3 JsonProof4 JsonProof5 EniModel.
From Coq Require Import List NArith ZArith Bool Lia.
From Coq.Init Require Import Byte.
From Coq.Strings Require Import Byte.
Import ListNotations.

(** ** Construction *)

Lemma construct_ok (c : opclass) lay s : (N.of_nat (length s) < 2^28)%N ->
  (exists a r v, gval (readable lay) s a r /\ build a = Ret v /\ wfj v /\ construct c lay s = Ret (mkE false false v (JArr []) (oinit c) []))
  \/ ((forall a r, ~ gval (readable lay) s a r) /\ construct c lay s = Exit 87).
Proof.
  intros Hs. change (readable lay) with (layout_lits lay). unfold construct.
  destruct (parse_ok lay s Hs) as [(a & r & v & H1 & H2 & H3 & H4)|(H1 & H2)].
  - left. exists a, r, v. rewrite H4. cbn [bind]. rewrite jcopy_id by auto. auto.
  - right. rewrite H2. auto.
Qed.

Lemma construct_val (c : opclass) lay s a r : (N.of_nat (length s) < 2^28)%N -> gval (readable lay) s a r ->
  exists v, build a = Ret v /\ construct c lay s = Ret (mkE false false v (JArr []) (oinit c) []) /\ (short_keys a -> denotes v a).
Proof.
  intros Hs Hg. destruct (construct_ok c lay s Hs) as [(a' & r' & v & H1 & H2 & H3 & H4)|(H1 & _)]; [|exfalso; eapply H1; eauto].
  destruct (gval_det _ _ _ _ _ _ H1 Hg) as [<- <-]. exists v. split; auto. split; auto. intros Hk. apply build_denotes; auto.
  apply (gval_fits _ _ _ _ H1). lia.
Qed.

Section Proof.
  Context {c : opclass}.
  Notation ebase := (ebase c).

  (** ** The order of the calls *)

  Definition quiet (l : list event) : Prop := Forall (fun e => match e with EParse _ => False | _ => True end) l.
  Definition ordered (log : list event) : Prop :=
    exists k rest, log = repeat (EParse None) k ++ rest /\
      (rest = [] \/ rest = [EParse (Some false)] \/ exists l, rest = EParse (Some true) :: l /\ quiet l).

  Definition linv (st : ebase) : Prop :=
    exists k, (e_parsed st = false /\ e_log st = repeat (EParse None) k) \/
      (e_parsed st = true /\ e_success st = false /\ e_log st = repeat (EParse None) k ++ [EParse (Some false)]) \/
      (e_parsed st = true /\ e_success st = true /\ exists l, e_log st = repeat (EParse None) k ++ EParse (Some true) :: l /\ quiet l).

  Lemma linv_ordered st : linv st -> ordered (e_log st).
  Proof.
    intros (k & [(_ & H)|[(_ & _ & H)|(_ & _ & l & H & Hq)]]); exists k; rewrite H.
    - exists []. rewrite app_nil_r. auto.
    - eexists. split; [reflexivity|]. auto.
    - eexists. split; [reflexivity|]. right. right. eauto.
  Qed.

  Lemma check_linv (st st' : ebase) r : linv st -> check st = (st', r) ->
    linv st' /\ (r = Ret true -> e_parsed st' = true /\ e_success st' = true).
  Proof.
    intros (k & H) Hc. unfold check in Hc. destruct H as [(Hp & Hl)|[(Hp & Hb & Hl)|(Hp & Hb & l & Hl & Hq)]]; rewrite Hp in Hc.
    - destruct (as_array (e_args st)) as [args| | | |] eqn:Ea; try (injection Hc as <- <-; split; [exists k; auto|discriminate]).
      destruct (oparse c (e_op st) args) as [s' ro].
      destruct ro as [[|]| | | |]; injection Hc as <- <-; split; try discriminate; auto.
      1: { exists k. right. right. cbn. split; auto. split; auto. exists []. rewrite Hl. split; auto. constructor. }
      1: { exists k. right. left. cbn. rewrite Hl. auto. }
      all: exists (S k); left; cbn; rewrite Hl; split; auto; clear; induction k; cbn; auto; now f_equal.
    - injection Hc as <- <-. split; [exists k; auto|]. rewrite Hb. discriminate.
    - injection Hc as <- <-. split; [exists k; right; right; eauto|]. auto.
  Qed.

  Lemma log_linv (st : ebase) e : linv st -> e_parsed st = true -> e_success st = true -> match e with EParse _ => False | _ => True end ->
    forall st', e_parsed st' = true -> e_success st' = true -> e_log st' = e_log st ++ [e] -> linv st'.
  Proof.
    intros (k & H) Hp Hb He st' Hp' Hb' Hl'. destruct H as [(H & _)|[(_ & H & _)|(_ & _ & l & Hl & Hq)]]; try congruence.
    exists k. right. right. split; auto. split; auto. exists (l ++ [e]). rewrite Hl', Hl, <- app_assoc. split; auto.
    apply Forall_app. split; auto.
  Qed.

  Lemma estep_linv (st st' : ebase) o a : linv st -> estep st o = Ret (st', a) -> linv st'.
  Proof.
    intros Hi Hs. destruct o; cbn [estep] in Hs.
    - destruct (get_gas st) as [s1 r1] eqn:Eg. assert (st' = s1) as ->.
      { destruct (ecatch GasIs r1); cbn [bind] in Hs; try discriminate. now injection Hs as <- <-. }
      unfold get_gas in Eg. destruct (check st) as [s2 r2] eqn:Ec. destruct (check_linv st s2 r2 Hi Ec) as [H1 H2].
      destruct r2 as [[|]| | | |]; injection Eg as <- <-; auto.
      destruct (H2 eq_refl) as [Hp Hb]. apply (log_linv s2 EGas); auto.
    - destruct (start st) as [s1 r1] eqn:Eg. assert (st' = s1) as ->.
      { destruct (ecatch ResultIs r1); cbn [bind] in Hs; try discriminate. now injection Hs as <- <-. }
      unfold start in Eg. destruct (check st) as [s2 r2] eqn:Ec. destruct (check_linv st s2 r2 Hi Ec) as [H1 H2].
      destruct r2 as [[|]| | | |]; try (injection Eg as <- <-; auto; fail).
      destruct (H2 eq_refl) as [Hp Hb].
      destruct (as_array (e_ret s2)) as [l| | | |]; try (injection Eg as <- <-; auto; fail).
      destruct (orun c (e_op s2) l) as [[s' l'] r']. injection Eg as <- <-. apply (log_linv s2 ERun); auto.
  Qed.

  Lemma erun_linv h : forall (st st' : ebase) as_, linv st -> erun st h = Ret (st', as_) -> linv st'.
  Proof.
    induction h as [|o h IH]; intros st st' as_ Hi Hr; cbn [erun] in Hr.
    - now injection Hr as <- <-.
    - destruct (estep st o) as [[s1 a1]| | | |] eqn:Es; cbn [bind] in Hr; try discriminate.
      destruct (erun s1 h) as [[s2 a2]| | | |] eqn:Er; cbn [bind] in Hr; try discriminate. injection Hr as <- <-.
      eapply IH; [|eauto]. eapply estep_linv; eauto.
  Qed.

  Lemma construct_linv lay s (st : ebase) : construct c lay s = Ret st -> linv st.
  Proof.
    unfold construct. destruct (parse lay s) as [[[|] v]| | | |]; cbn [bind]; try discriminate. intros H. injection H as <-.
    exists 0. left. auto.
  Qed.

  (** ** Rejected arguments *)

  Definition refusal (o : ecall) : eanswer := match o with GetGas => GasIs 1500 | Start => ResultIs None end.

  Lemma refused_run h : forall (st : ebase), e_parsed st = true -> e_success st = false -> erun st h = Ret (st, map refusal h).
  Proof.
    induction h as [|o h IH]; intros st Hp Hb; cbn [erun map]; auto.
    assert (Hc : check st = (st, Ret false)) by (unfold check; now rewrite Hp, Hb).
    assert (Hs : estep st o = Ret (st, refusal o)).
    { destruct o; cbn [estep refusal]; unfold get_gas, start; rewrite Hc; reflexivity. }
    rewrite Hs. cbn [bind]. now rewrite IH.
  Qed.

  Lemma refused_first h (st : ebase) args s' : e_parsed st = false -> e_args st = JArr args -> oparse c (e_op st) args = (s', Ret false) ->
    exists st', erun st h = Ret (st', map refusal h).
  Proof.
    intros Hp Ha Ho. destruct h as [|o h]; cbn [erun map]; [eexists; reflexivity|].
    set (st1 := mkE true false (JArr args) (e_ret st) s' (e_log st ++ [EParse (Some false)])).
    assert (Hc : check st = (st1, Ret false)) by (unfold check; rewrite Hp, Ha; cbn [as_array]; rewrite Ho; reflexivity).
    assert (Hs : estep st o = Ret (st1, refusal o)).
    { destruct o; cbn [estep refusal]; unfold get_gas, start; rewrite Hc; reflexivity. }
    rewrite Hs. cbn [bind]. rewrite refused_run by reflexivity. eexists. reflexivity.
  Qed.

  (** ** Gas queries *)

  (** everything but the log *)
  Definition same_data (s t : ebase) : Prop :=
    e_parsed s = e_parsed t /\ e_success s = e_success t /\ e_args s = e_args t /\ e_ret s = e_ret t /\ e_op s = e_op t.

  Lemma check_idem (st st' : ebase) b : check st = (st', Ret b) -> check st' = (st', Ret b).
  Proof.
    unfold check. destruct (e_parsed st) eqn:Hp.
    - intros H. injection H as <- <-. now rewrite Hp.
    - destruct (as_array (e_args st)); try discriminate. destruct (oparse c (e_op st) a) as [s' [| | | |]]; try discriminate.
      intros H. injection H as <- <-. reflexivity.
  Qed.

  (** after one getGas that did not throw in parse, further ones change nothing but the log *)
  Lemma start_same (s t : ebase) : same_data s t -> e_parsed s = true -> snd (start s) = snd (start t).
  Proof.
    intros (H1 & H2 & H3 & H4 & H5) Hp. unfold start, check. rewrite <- H1, Hp, <- H2. destruct (e_success s); [|reflexivity].
    rewrite <- H4, <- H5. destruct (as_array (e_ret s)); cbn [snd]; auto.
    destruct (orun c (e_op s) a) as [[x y] z]. reflexivity.
  Qed.

  Lemma start_check (st st' : ebase) b : check st = (st', Ret b) -> snd (start st) = snd (start st').
  Proof. intros H. unfold start. rewrite H, (check_idem st st' b H). reflexivity. Qed.

  Definition never_throws : Prop := forall s args e, snd (oparse c s args) <> Throw e.

  Lemma gas_step (st st' : ebase) a : never_throws -> estep st GetGas = Ret (st', a) ->
    exists b s1, check st = (s1, Ret b) /\ same_data s1 st' /\ e_parsed s1 = true.
  Proof.
    intros Hn Hs. cbn [estep] in Hs. unfold get_gas in Hs. destruct (check st) as [s1 r] eqn:Ec.
    assert (Hpar : forall b, r = Ret b -> e_parsed s1 = true).
    { intros b ->. unfold check in Ec. destruct (e_parsed st) eqn:Hp; [now injection Ec as <- _|].
      destruct (as_array (e_args st)); try discriminate. destruct (oparse c (e_op st) a0) as [s' [| | | |]]; try discriminate. now injection Ec as <- _. }
    destruct r as [[|]| | | |].
    - destruct (ecatch GasIs (ogas c (e_op s1))) eqn:E; cbn [bind] in Hs; try discriminate. injection Hs as <- <-.
      exists true, s1. split; auto. split; [|eauto]. unfold same_data, log. cbn. auto.
    - injection Hs as <- <-. exists false, s1. split; auto. split; [|eauto]. unfold same_data. auto.
    - exfalso. unfold check in Ec. destruct (e_parsed st); [discriminate|]. destruct (as_array (e_args st)) eqn:Ea; try discriminate.
      + pose proof (Hn (e_op st) a0) as Hn'. destruct (oparse c (e_op st) a0) as [s' [| | | |]]; try discriminate.
        injection Ec as _ ->. apply (Hn' e). reflexivity.
      + unfold as_array in Ea. destruct (e_args st); discriminate.
    - discriminate.
    - discriminate.
    - discriminate.
  Qed.

  Lemma gas_steps n : forall (st st' : ebase) as_, never_throws -> erun st (repeat GetGas n) = Ret (st', as_) -> snd (start st) = snd (start st').
  Proof.
    induction n as [|n IH]; intros st st' as_ Hn Hr; cbn [repeat erun] in Hr.
    - now injection Hr as <- <-.
    - destruct (estep st GetGas) as [[s1 a1]| | | |] eqn:Es; cbn [bind] in Hr; try discriminate.
      destruct (erun s1 (repeat GetGas n)) as [[s2 a2]| | | |] eqn:Er; cbn [bind] in Hr; try discriminate. injection Hr as <- <-.
      rewrite <- (IH s1 s2 a2 Hn Er). destruct (gas_step st s1 a1 Hn Es) as (b & s3 & Hc & Hsd & Hp).
      rewrite (start_check st s3 b Hc). now apply start_same.
  Qed.

  Lemma erun_app h1 h2 : forall (st : ebase), erun st (h1 ++ h2) = ('(s1, a1) <- erun st h1 ;; '(s2, a2) <- erun s1 h2 ;; Ret (s2, a1 ++ a2)).
  Proof.
    induction h1 as [|o h1 IH]; intros st; cbn [erun app].
    - cbn [bind]. destruct (erun st h2) as [[s2 a2]| | | |]; reflexivity.
    - destruct (estep st o) as [[s a]| | | |]; cbn [bind]; auto. rewrite IH.
      destruct (erun s h1) as [[s1 a1]| | | |]; cbn [bind]; auto. destruct (erun s1 h2) as [[s2 a2]| | | |]; reflexivity.
  Qed.

  Lemma start_step (st st' : ebase) a : estep st Start = Ret (st', a) <-> st' = fst (start st) /\ ecatch ResultIs (snd (start st)) = Ret a.
  Proof.
    cbn [estep]. destruct (start st) as [s r]. cbn [fst snd]. destruct (ecatch ResultIs r); cbn [bind]; split; intros H; try discriminate; try (destruct H; discriminate).
    - injection H as <- <-. auto.
    - destruct H as [-> H]. injection H as ->. reflexivity.
  Qed.

  Lemma gas_then_start n (st st' : ebase) as_ : never_throws -> erun st (repeat GetGas n ++ [Start]) = Ret (st', as_) ->
    exists gs r st'', as_ = gs ++ [r] /\ erun st [Start] = Ret (st'', [r]).
  Proof.
    intros Hn Hr. rewrite erun_app in Hr. destruct (erun st (repeat GetGas n)) as [[s1 a1]| | | |] eqn:E1; cbn [bind] in Hr; try discriminate.
    cbn [erun] in Hr. destruct (estep s1 Start) as [[s2 a2]| | | |] eqn:E2; cbn [bind] in Hr; try discriminate. injection Hr as <- <-.
    apply start_step in E2 as [_ E2]. rewrite <- (gas_steps n st s1 a1 Hn E1) in E2.
    assert (Hs : estep st Start = Ret (fst (start st), a2)) by (apply start_step; auto).
    exists a1, a2, (fst (start st)). split; auto. cbn [erun]. rewrite Hs. reflexivity.
  Qed.
End Proof.

(** ** The reverse operation *)

Lemma build_arr l v : build (AArr l) = Ret v -> exists vs, sequence (map build l) = Ret vs /\ v = JArr vs.
Proof. cbn [build]. destruct (sequence (map build l)); cbn [bind]; try discriminate. intros H. injection H as <-. eauto. Qed.

Lemma build_arr_str s l v : build (AArr (AStr s :: l)) = Ret v -> exists vs, v = JArr (JStr s :: vs).
Proof.
  intros H. apply build_arr in H as (vs & H & ->). cbn [map sequence build bind] in H.
  destruct (sequence (map build l)); cbn [bind] in H; try discriminate. injection H as <-. eauto.
Qed.

Lemma cstr_nonul t : ~ In NUL t -> cstr t = t.
Proof.
  induction t as [|c t IH]; cbn [cstr]; intros H; auto. destruct (beqb c NUL) eqn:E.
  - exfalso. apply H. left. destruct (beqb_spec c NUL); congruence.
  - f_equal. apply IH. intros Hi. apply H. now right.
Qed.

(** the text of an array of strings *)
Definition strings_text (l : list bytes) : bytes := x5b :: commas (map (fun s => x22 :: flat_map print_char s ++ [x22]) l) ++ [x5d].

Lemma print_strings l : print (JArr (map JStr l)) = Ret (strings_text l).
Proof.
  cbn [print]. assert (H : sequence (map print (map JStr l)) = Ret (map (fun s => x22 :: flat_map print_char s ++ [x22]) l)).
  { induction l as [|s l IH]; cbn [map sequence]; auto. rewrite IH. reflexivity. }
  rewrite H. reflexivity.
Qed.

Lemma strings_simple l : simple (JArr (map JStr l)).
Proof. constructor. intros v Hv. apply in_map_iff in Hv as (s & <- & _). constructor. Qed.

Lemma strings_keys l : all_keys (fun k => ~ In NUL k) (JArr (map JStr l)).
Proof. constructor. intros v Hv. apply in_map_iff in Hv as (s & <- & _). constructor. Qed.

Lemma strings_nonul l : ~ In NUL (strings_text l).
Proof. eapply print_nonul; [apply (strings_keys l)|apply print_strings]. Qed.

Lemma cstr_strings l : cstr (strings_text l) = strings_text l.
Proof. apply cstr_nonul, strings_nonul. Qed.

Lemma strings_gval lits l : gval lits (strings_text l) (AArr (map AStr l)) [].
Proof.
  destruct (print_simple (fun _ => true) (JArr (map JStr l)) (fun _ => eq_refl) (strings_simple l)) as (t & Ht & Hg).
  rewrite print_strings in Ht. injection Ht as <-. specialize (Hg [] nsd_nil). rewrite app_nil_r in Hg.
  assert (E : ast_of (JArr (map JStr l)) = AArr (map AStr l)) by (cbn [ast_of]; f_equal; rewrite map_map; reflexivity).
  rewrite E in Hg. eapply gval_nobool; [exact Hg|]. clear. cbn [has_bool]. induction l; cbn; auto. intros [H|H]; auto.
Qed.

Lemma strings_inj l1 l2 : strings_text l1 = strings_text l2 -> l1 = l2.
Proof.
  intros H. pose proof (strings_gval documented l1) as H1. pose proof (strings_gval documented l2) as H2.
  rewrite <- H in H2. destruct (gval_det _ _ _ _ _ _ H1 H2) as [E _]. injection E as E.
  clear H H1 H2. revert l2 E. induction l1 as [|s l1 IH]; intros [|s2 l2] E; cbn in E; try discriminate; auto.
  injection E as -> E. f_equal. auto.
Qed.

Lemma reverse_start lay text s l r : (N.of_nat (length text) < 2^28)%N -> gval (readable lay) text (AArr (AStr s :: l)) r ->
  exists st, construct reverse_op lay text = Ret st /\ e_parsed st = false /\ e_ret st = JArr [] /\
    (exists vs, e_args st = JArr (JStr s :: vs)).
Proof.
  intros Hs Hg. destruct (construct_val reverse_op lay text _ _ Hs Hg) as (v & Hb & Hc & _).
  apply build_arr_str in Hb as (vs & ->). eexists. split; [exact Hc|]. cbn. eauto.
Qed.

Lemma arg_head v vs : arg_at (v :: vs) 0 = Ret v.
Proof. unfold arg_at, value_idx. change (0 mod 18446744073709551616)%Z with 0%Z. cbn [Z.to_N length N.to_nat nth_error].
  destruct (N.leb_spec (N.of_nat (S (length vs))) 0); [lia|reflexivity].
Qed.

Lemma reverse_oparse s0 s vs : oparse reverse_op s0 (JStr s :: vs) = (s, Ret true).
Proof. cbn [oparse reverse_op]. rewrite arg_head. reflexivity. Qed.

(** the protocol, for any class *)
Lemma protocol (c : opclass) lay buf l r : (N.of_nat (length (cstr buf)) < 2^28)%N -> gval (readable lay) (cstr buf) (AArr l) r ->
  Forall short_keys l ->
  exists vs, Forall2 denotes vs l /\
    c_gas c lay buf = (let (s, ok) := oparse c (oinit c) vs in b <- ok ;; if b then ogas c s else Ret 1500%N) /\
    c_run c lay buf = (let (s, ok) := oparse c (oinit c) vs in b <- ok ;;
                       if b then let '(_, out, ok') := orun c s [] in b' <- ok' ;; if b' then t <- print (JArr out) ;; Ret (Some (cstr t)) else Ret None
                       else Ret None).
Proof.
  intros Hs Hg Hk. destruct (construct_val c lay _ _ _ Hs Hg) as (v & Hb & Hc & Hd).
  assert (Hd' : denotes v (AArr l)). { apply Hd. cbn [short_keys]. clear -Hk. induction Hk; cbn; auto. }
  inversion Hd' as [| | |vs l' Hf|]; subst. exists vs. split; auto.
  unfold c_gas, c_run. rewrite Hc. cbn [bind]. unfold get_gas, start, check. cbn [e_parsed e_args as_array e_op e_log].
  destruct (oparse c (oinit c) vs) as [s ok]. destruct ok as [[|]| | | |]; cbn [bind snd]; auto.
  split; auto. cbn [e_ret as_array e_op]. destruct (orun c s []) as [[s' out] ok']. cbn [snd e_ret]. reflexivity.
Qed.

Lemma reverse_protocol lay text s l r : (N.of_nat (length text) < 2^28)%N -> gval (readable lay) text (AArr (AStr s :: l)) r ->
  exists st, construct reverse_op lay text = Ret st /\ snd (get_gas st) = Ret (u64 (N.of_nat (length s) * 10)) /\
    forall n, exists st', erun st (repeat Start n) = Ret (st', map (fun i => ResultIs (Some (strings_text (repeat (rev s) (S i))))) (seq 0 n)).
Proof.
  intros Hs Hg. destruct (reverse_start lay text s l r Hs Hg) as (st & Hc & Hp & Hret & vs & Ha).
  assert (Hop : e_op st = []).
  { unfold construct in Hc. destruct (parse lay text) as [[[|] v]| | | |]; cbn [bind] in Hc; try discriminate. now injection Hc as <-. }
  exists st. split; auto.
  assert (Hch : exists lg, check st = (@mkE reverse_op true true (e_args st) (JArr []) s lg, Ret true)).
  { unfold check. rewrite Hp, Ha. cbn [as_array]. rewrite reverse_oparse, Hret. eauto. }
  destruct Hch as (lg & Hch). split.
  { unfold get_gas. rewrite Hch. reflexivity. }
  assert (Hstep : forall k lg, snd (start (@mkE reverse_op true true (e_args st) (JArr (map JStr (repeat (rev s) k))) s lg)) = Ret (Some (strings_text (repeat (rev s) (S k)))) /\
     exists lg', fst (start (@mkE reverse_op true true (e_args st) (JArr (map JStr (repeat (rev s) k))) s lg)) = @mkE reverse_op true true (e_args st) (JArr (map JStr (repeat (rev s) (S k)))) s lg').
  { intros k lg0. assert (E : map JStr (repeat (rev s) k) ++ [JStr (rev s)] = map JStr (repeat (rev s) (S k))).
    { replace (S k) with (k + 1) by lia. rewrite repeat_app, map_app. reflexivity. }
    unfold start, check. cbn [e_parsed e_success e_ret as_array e_op orun reverse_op fst snd e_log e_args]. rewrite E. cbn [bind].
    rewrite print_strings. cbn [bind]. rewrite cstr_strings. split; eauto. }
  assert (Hmany : forall n k lg, exists st', erun (@mkE reverse_op true true (e_args st) (JArr (map JStr (repeat (rev s) k))) s lg) (repeat Start n)
       = Ret (st', map (fun i => ResultIs (Some (strings_text (repeat (rev s) (S i))))) (seq k n))).
  { induction n as [|n IH]; intros k lg0; cbn [repeat erun seq map]; [eexists; reflexivity|].
    destruct (Hstep k lg0) as (H1 & lg' & H2). match type of H1 with snd (start ?x) = _ => set (s0 := x) in * end.
    assert (Hs1 : estep s0 Start = Ret (fst (start s0), ResultIs (Some (strings_text (repeat (rev s) (S k)))))).
    { apply start_step. split; auto. rewrite H1. reflexivity. }
    rewrite Hs1. cbn [bind]. rewrite H2. destruct (IH (S k) lg') as (st' & E). rewrite E. cbn [bind]. eexists. reflexivity. }
  intros [|n]; [eexists; reflexivity|]. destruct (Hmany (S n) 0 lg) as (st' & E). exists st'. rewrite <- E. clear E.
  cbn [repeat erun estep]. unfold start at 1. rewrite Hch. unfold start, check.
  cbn [e_parsed e_success e_ret as_array e_op orun reverse_op fst snd e_log e_args map repeat]. reflexivity.
Qed.

Lemma gchars_le s cs r : gchars s cs r -> (length cs <= length s)%nat.
Proof. induction 1; cbn [length]; lia. Qed.

Lemma gval_str_le lits s cs r : gval lits s (AStr cs) r -> (length cs <= length s)%nat.
Proof. intros H. inversion H; subst. rewrite app_length. cbn [length]. pose proof (gchars_le _ _ _ H3). lia. Qed.

Lemma gval_arr_str_le lits s cs l r : gval lits s (AArr (AStr cs :: l)) r -> (length cs <= length s)%nat.
Proof.
  intros H. inversion H; subst. rewrite app_length. cbn [length].
  match goal with H : gelems _ _ _ _ |- _ => inversion H; subst end;
  match goal with H : gval _ _ (AStr _) _ |- _ => apply gval_str_le in H end; lia.
Qed.

Lemma reverse_run lay buf s l r : (N.of_nat (length (cstr buf)) < 2^28)%N -> gval (readable lay) (cstr buf) (AArr (AStr s :: l)) r ->
  c_gas reverse_op lay buf = Ret (10 * N.of_nat (length s))%N /\ c_run reverse_op lay buf = Ret (Some (strings_text [rev s])).
Proof.
  intros Hs Hg. destruct (reverse_protocol lay _ s l r Hs Hg) as (st & Hc & Hgas & Hr).
  unfold c_gas, c_run. rewrite Hc. cbn [bind]. split.
  - rewrite Hgas. f_equal. apply gval_arr_str_le in Hg. unfold u64. rewrite N.mod_small; [lia|].
    change (2^64)%N with 18446744073709551616%N. change (2^28)%N with 268435456%N in Hs. lia.
  - destruct (Hr 1) as (st' & E). cbn [repeat erun] in E. destruct (estep st Start) as [[s1 a1]| | | |] eqn:Es; cbn [bind] in E; try discriminate.
    injection E as -> ->. apply start_step in Es as [_ Es]. destruct (snd (start st)); cbn [ecatch] in Es; try discriminate. now injection Es as ->.
Qed.

Lemma reverse_text lay s : (N.of_nat (length (strings_text [s])) < 2^28)%N ->
  c_run reverse_op lay (strings_text [s]) = Ret (Some (strings_text [rev s])).
Proof.
  intros Hs. rewrite <- cstr_strings in Hs. eapply reverse_run; [exact Hs|]. rewrite cstr_strings. apply (strings_gval (readable lay) [s]).
Qed.

(** ** Texts that are not arrays *)

Lemma not_array (c : opclass) lay buf a r : (N.of_nat (length (cstr buf)) < 2^28)%N -> gval (readable lay) (cstr buf) a r ->
  (forall l, a <> AArr l) -> c_gas c lay buf = UB TypeConfusion /\ c_run c lay buf = UB TypeConfusion.
Proof.
  intros Hs Hg Ha. destruct (construct_val c lay _ _ _ Hs Hg) as (v & Hb & Hc & _).
  unfold c_gas, c_run. rewrite Hc. cbn [bind]. unfold get_gas, start, check. cbn [e_parsed e_args].
  assert (Hu : as_array v = UB TypeConfusion).
  { destruct a; cbn [build] in Hb; try (injection Hb as <-; reflexivity).
    - exfalso. eapply Ha. reflexivity.
    - apply bind_ret in Hb as (x & _ & Hb). apply bind_ret in Hb as (t & _ & Hb). injection Hb as <-. reflexivity. }
  rewrite Hu. auto.
Qed.

(** ** Statements used by EniProps.v *)

Lemma check_none_throw (c : opclass) (st st' : ebase c) r : never_throws (c := c) -> check st = (st', r) ->
  ~ In (EParse None) (e_log st) -> (forall u, r <> UB u) -> r <> Diverge -> (forall n, r <> Exit n) -> ~ In (EParse None) (e_log st').
Proof.
  intros Hn Hc Hi H1 H2 H3. unfold check in Hc. destruct (e_parsed st); [now injection Hc as <- <-|].
  destruct (as_array (e_args st)) as [args| | | |] eqn:Ea; try (injection Hc as <- <-; auto; fail).
  pose proof (Hn (e_op st) args) as Hn'. destruct (oparse c (e_op st) args) as [s' ro]. cbn [snd] in Hn'.
  destruct ro as [b|e|u| |n]; injection Hc as <- <-; cbn [e_log].
  - intros H. apply in_app_iff in H as [H|[H|[]]]; [auto|discriminate].
  - exfalso. now apply (Hn' e).
  - now destruct (H1 u).
  - now destruct H2.
  - now destruct (H3 n).
Qed.

Lemma estep_none_throw (c : opclass) (st st' : ebase c) o a : never_throws (c := c) -> estep st o = Ret (st', a) ->
  ~ In (EParse None) (e_log st) -> ~ In (EParse None) (e_log st').
Proof.
  intros Hn Hs Hi. assert (Hap : forall l e, ~ In (EParse None) l -> e <> EParse None -> ~ In (EParse None) (l ++ [e])).
  { intros l e H1 H2 H. apply in_app_iff in H as [H|[H|[]]]; auto. }
  destruct o; cbn [estep] in Hs.
  - unfold get_gas in Hs. destruct (check st) as [s2 r2] eqn:Ec.
    destruct r2 as [[|]| | | |]; cbn [ecatch bind] in Hs; try discriminate.
    + destruct (ogas c (e_op s2)); cbn [ecatch bind] in Hs; try discriminate; injection Hs as <- <-; cbn [log e_log];
        (apply Hap; [eapply check_none_throw; eauto; discriminate|discriminate]).
    + injection Hs as <- <-. eapply check_none_throw; eauto; discriminate.
    + injection Hs as <- <-. eapply check_none_throw; eauto; discriminate.
  - unfold start in Hs. destruct (check st) as [s2 r2] eqn:Ec.
    destruct r2 as [[|]| | | |]; cbn [ecatch bind] in Hs; try discriminate.
    + assert (H2 : ~ In (EParse None) (e_log s2)) by (eapply check_none_throw; eauto; discriminate).
      destruct (as_array (e_ret s2)) as [l| | | |]; cbn [ecatch bind] in Hs; try discriminate.
      * destruct (orun c (e_op s2) l) as [[x y] z].
        match type of Hs with context [ecatch ResultIs ?m] => destruct (ecatch ResultIs m) end; cbn [bind] in Hs; try discriminate.
        injection Hs as <- <-. cbn [e_log]. apply Hap; [auto|discriminate].
      * injection Hs as <- <-. auto.
    + injection Hs as <- <-. eapply check_none_throw; eauto; discriminate.
    + injection Hs as <- <-. eapply check_none_throw; eauto; discriminate.
Qed.

Lemma erun_none_throw (c : opclass) h : forall (st st' : ebase c) as_, never_throws (c := c) -> erun st h = Ret (st', as_) ->
  ~ In (EParse None) (e_log st) -> ~ In (EParse None) (e_log st').
Proof.
  induction h as [|o h IH]; intros st st' as_ Hn Hr Hi; cbn [erun] in Hr.
  - now injection Hr as <- <-.
  - destruct (estep st o) as [[s1 a1]| | | |] eqn:Es; cbn [bind] in Hr; try discriminate.
    destruct (erun s1 h) as [[s2 a2]| | | |] eqn:Er; cbn [bind] in Hr; try discriminate. injection Hr as <- <-.
    eapply IH; eauto. eapply estep_none_throw; eauto.
Qed.

Lemma eni_order (c : opclass) lay text st h st' answers :
  construct c lay text = Ret st -> erun st h = Ret (st', answers) ->
  exists k rest, e_log st' = repeat (EParse None) k ++ rest /\
    (rest = [] \/ rest = [EParse (Some false)] \/ exists l, rest = EParse (Some true) :: l /\ (forall e, In e l -> e = EGas \/ e = ERun)) /\
    ((forall s args e, snd (oparse c s args) <> Throw e) -> k = 0).
Proof.
  intros Hc Hr. pose proof (erun_linv h st st' answers (construct_linv lay text st Hc) Hr) as Hi.
  apply linv_ordered in Hi as (k & rest & Hl & Hrest). exists k, rest. split; auto. split.
  - destruct Hrest as [H|[H|(l & -> & Hq)]]; auto. right. right. exists l. split; auto. intros e He. unfold quiet in Hq. rewrite Forall_forall in Hq.
    specialize (Hq e He). destruct e; tauto.
  - intros Hn. assert (Hno : ~ In (EParse None) (e_log st')).
    { eapply erun_none_throw; eauto. unfold construct in Hc. destruct (parse lay text) as [[[|] v]| | | |]; cbn [bind] in Hc; try discriminate.
      injection Hc as <-. auto. }
    destruct k as [|k]; auto. exfalso. apply Hno. rewrite Hl. now left.
Qed.

Lemma eni_rejected (c : opclass) lay text st args s' h :
  construct c lay text = Ret st -> e_args st = JArr args -> oparse c (oinit c) args = (s', Ret false) ->
  exists st', erun st h = Ret (st', map (fun o => match o with GetGas => GasIs 1500 | Start => ResultIs None end) h).
Proof.
  intros Hc Ha Ho. apply (refused_first h st args s'); auto; unfold construct in Hc;
  destruct (parse lay text) as [[[|] v]| | | |]; cbn [bind] in Hc; try discriminate; injection Hc as <-; auto.
Qed.

Lemma reverse_start_twice lay text s l r : (N.of_nat (length text) < 2^28)%N -> gval (readable lay) text (AArr (AStr s :: l)) r ->
  exists st st' t1 t2, construct reverse_op lay text = Ret st /\ erun st [Start; Start] = Ret (st', [ResultIs (Some t1); ResultIs (Some t2)]) /\
    gval documented t1 (AArr [AStr (rev s)]) [] /\ gval documented t2 (AArr [AStr (rev s); AStr (rev s)]) [] /\ t1 <> t2.
Proof.
  intros Hs Hg. destruct (reverse_protocol lay text s l r Hs Hg) as (st & Hc & _ & Hr). destruct (Hr 2) as (st' & E).
  exists st, st', (strings_text [rev s]), (strings_text [rev s; rev s]). split; auto. split; [exact E|].
  split; [|split].
  - apply (strings_gval documented [rev s]).
  - apply (strings_gval documented [rev s; rev s]).
  - intros H. apply strings_inj in H. discriminate.
Qed.

Lemma reverse_result lay buf s l r : (N.of_nat (length (cstr buf)) < 2^28)%N -> gval (readable lay) (cstr buf) (AArr (AStr s :: l)) r ->
  c_gas reverse_op lay buf = Ret (10 * N.of_nat (length s))%N /\
  exists t, c_run reverse_op lay buf = Ret (Some t) /\ gval documented t (AArr [AStr (rev s)]) [].
Proof.
  intros Hs Hg. destruct (reverse_run lay buf s l r Hs Hg) as (H1 & H2). split; auto. eexists. split; [exact H2|].
  apply (strings_gval documented [rev s]).
Qed.

Lemma reverse_involution lay lay' buf s l r t : (N.of_nat (length (cstr buf)) < 2^28)%N -> gval (readable lay) (cstr buf) (AArr (AStr s :: l)) r ->
  c_run reverse_op lay buf = Ret (Some t) -> (N.of_nat (length t) < 2^28)%N ->
  exists t', c_run reverse_op lay' t = Ret (Some t') /\ gval documented t' (AArr [AStr s]) [].
Proof.
  intros Hs Hg Hr Ht. destruct (reverse_run lay buf s l r Hs Hg) as (_ & H2). rewrite H2 in Hr. injection Hr as <-.
  exists (strings_text [s]). split; [|apply (strings_gval documented [s])]. rewrite reverse_text by auto. now rewrite rev_involutive.
Qed.

Lemma reverse_every_string s : exists t, print (JArr [JStr s]) = Ret t /\ cstr t = t /\ gval documented t (AArr [AStr s]) [].
Proof.
  exists (strings_text [s]). split; [apply (print_strings [s])|]. split; [apply cstr_strings|]. apply (strings_gval documented [s]).
Qed.

Lemma reverse_bad_args lay buf l r : (N.of_nat (length (cstr buf)) < 2^28)%N -> gval (readable lay) (cstr buf) (AArr l) r -> Forall short_keys l ->
  (l = [] -> c_gas reverse_op lay buf = Throw OutOfRangeVector /\ c_run reverse_op lay buf = Throw OutOfRangeVector) /\
  (forall a l', l = a :: l' -> (forall s, a <> AStr s) -> c_gas reverse_op lay buf = UB TypeConfusion /\ c_run reverse_op lay buf = UB TypeConfusion).
Proof.
  intros Hs Hg Hk. destruct (protocol reverse_op lay buf l r Hs Hg Hk) as (vs & Hf & -> & ->). split.
  - intros ->. inversion Hf; subst. split; reflexivity.
  - intros a l' -> Ha. inversion Hf as [|v ? vs' ? Hd _]; subst.
    cbn [oparse reverse_op]. rewrite arg_head. cbn [bind].
    assert (Hu : to_string v = UB TypeConfusion). { inversion Hd; subst; try reflexivity. exfalso. eapply Ha. reflexivity. }
    rewrite Hu. split; reflexivity.
Qed.

Lemma gval_documented lay s a r : gval (readable lay) s a r -> gval documented s a r.
Proof. apply gval_lits. reflexivity. Qed.

Lemma eni_exit (c : opclass) lay text : (N.of_nat (length text) < 2^28)%N ->
  ((forall a r, ~ gval documented text a r) -> construct c lay text = Exit 87) /\
  (forall a r, gval documented text a r -> good_layout lay \/ ~ has_bool a -> short_keys a ->
     exists st, construct c lay text = Ret st /\ denotes (e_args st) a /\ e_log st = []).
Proof.
  intros Hs. split.
  - intros Hn. destruct (construct_ok c lay text Hs) as [(a & r & v & Hg & _)|(_ & H)]; auto.
    exfalso. eapply Hn. eapply gval_documented. eauto.
  - intros a r Hg Hb Hk. assert (Hg' : gval (readable lay) text a r).
    { destruct Hb as [Hb|Hb]; [|now apply (gval_nobool documented)]. apply (gval_lits documented); auto. intros b _.
      apply (good_layout_lits lay Hb b). }
    destruct (construct_val c lay text a r Hs Hg') as (v & _ & Hc & Hd). eexists. split; [exact Hc|]. cbn. auto.
Qed.

Lemma eni_exit_bool (c : opclass) lay : (a_end lay <= a_rue lay + 2)%N ->
  gval documented (x5b :: literal true ++ [x5d]) (AArr [ABool true]) [] /\ construct c lay (x5b :: literal true ++ [x5d]) = Exit 87.
Proof.
  intros H. assert (Hg : gval documented (x5b :: literal true ++ [x5d]) (AArr [ABool true]) []).
  { apply (G_arr documented [] (literal true ++ [x5d]) [ABool true] []); [constructor|].
    apply (GE_last documented _ _ [] []); [|constructor]. apply (G_bool documented [] true [x5d]); [constructor|reflexivity]. }
  split; auto. destruct (construct_ok c lay (x5b :: literal true ++ [x5d])) as [(a & r & v & Hg' & _)|(_ & E)]; auto; [reflexivity|].
  exfalso. destruct (gval_det _ _ _ _ _ _ (gval_documented lay _ _ _ Hg') Hg) as [-> ->].
  assert (Hread : readable lay true = true).
  { clear -Hg'. inversion Hg' as [| | | | |w s l r Hw He| |]; subst.
    inversion He as [s' a w' r' Hv Hw'|? ? ? ? ? ? ? ? Hx]; subst; [|now inversion Hx]. now inversion Hv; subst. }
  cbn [readable] in Hread. apply N.ltb_lt in Hread. lia.
Qed.

Lemma reverse_reparse lay n : exists st st', construct reverse_op lay [x5b; x5d] = Ret st /\
  erun st (repeat GetGas n) = Ret (st', repeat (Threw OutOfRangeVector) n) /\ e_log st' = repeat (EParse None) n.
Proof.
  set (mk := fun k => @mkE reverse_op false false (JArr []) (JArr []) [] (repeat (EParse None) k)).
  assert (Hc : construct reverse_op lay [x5b; x5d] = Ret (mk 0)).
  { assert (Hg : gval (readable lay) [x5b; x5d] (AArr []) []) by (apply (G_arr0 _ [] [] []); constructor).
    destruct (construct_val reverse_op lay [x5b; x5d] _ _ eq_refl Hg) as (v & Hb & Hc & _). injection Hb as <-. exact Hc. }
  exists (mk 0), (mk n). split; auto. split; [|reflexivity].
  assert (H : forall n k, erun (mk k) (repeat GetGas n) = Ret (mk (n + k), repeat (Threw OutOfRangeVector) n)).
  { clear. induction n as [|n IH]; intros k; cbn [repeat erun]; auto.
    assert (Hs : estep (mk k) GetGas = Ret (mk (S k), Threw OutOfRangeVector)).
    { unfold estep, get_gas, check, mk. cbn [e_parsed e_args as_array e_op e_success e_ret e_log].
      assert (E : repeat (EParse None) k ++ [EParse None] = repeat (EParse None) (S k)).
      { clear. induction k; cbn; auto. cbn in IHk. now f_equal. }
      change (oparse reverse_op [] []) with (([] : bytes), (Throw OutOfRangeVector : outcome bool)).
      cbv iota beta. rewrite E. reflexivity. }
    rewrite Hs. cbn [bind]. rewrite IH. cbn [bind]. now replace (n + S k) with (S n + k) by lia. }
  rewrite H. now replace (n + 0) with n by lia.
Qed.

(** ** Repeated start() *)

Definition run_idem (c : opclass) : Prop := forall s l s' l' b, orun c s l = (s', l', Ret b) -> orun c s' l' = (s', l', Ret b).

Lemma start_repeatable (c : opclass) lay text st n st' answers :
  run_idem c -> (forall s args e, snd (oparse c s args) <> Throw e) -> (forall s l s' l' e, orun c s l <> (s', l', Throw e)) ->
  construct c lay text = Ret st -> erun st (repeat Start n) = Ret (st', answers) -> exists a, answers = repeat a n.
Proof.
  intros Hid Hn Ht _ Hr. destruct n as [|n]; cbn [repeat erun] in Hr. { injection Hr as <- <-. exists (GasIs 0). reflexivity. }
  destruct (estep st Start) as [[s1 a1]| | | |] eqn:Es; cbn [bind] in Hr; try discriminate.
  destruct (erun s1 (repeat Start n)) as [[s2 a2]| | | |] eqn:Er; cbn [bind] in Hr; try discriminate. injection Hr as <- <-.
  exists a1. cbn [repeat]. f_equal.
  assert (Hfix : exists f : list event -> ebase c, (exists lg, s1 = f lg) /\ forall lg, exists lg', estep (f lg) Start = Ret (f lg', a1)).
  { pose proof Es as Es0. apply start_step in Es as [Es1 Es2]. subst s1. unfold start in Es2 |- *. destruct (check st) as [s0 r0] eqn:Ec.
    assert (Hck : forall b, r0 = Ret b -> e_parsed s0 = true /\ e_success s0 = b).
    { intros b ->. unfold check in Ec. destruct (e_parsed st) eqn:Hp; [injection Ec as <- <-; auto|].
      destruct (as_array (e_args st)); try discriminate. destruct (oparse c (e_op st) a) as [x [| | | |]]; try discriminate. injection Ec as <- <-; auto. }
    destruct r0 as [[|]| | | |]; cbn [snd ecatch] in Es2; try discriminate.
    - destruct (Hck true eq_refl) as [Hp Hb]. destruct (as_array (e_ret s0)) as [l| | | |] eqn:Ea; cbn [snd ecatch] in Es2; try discriminate;
        [|unfold as_array in Ea; destruct (e_ret s0); discriminate].
      pose proof (Hid (e_op s0) l) as Hid'. pose proof (Ht (e_op s0) l) as Ht'. destruct (orun c (e_op s0) l) as [[x y] z]. cbn [snd fst] in *.
      destruct z as [b|e| | |]; cbn [bind ecatch] in Es2; try discriminate; [|exfalso; eapply Ht'; reflexivity].
      specialize (Hid' x y b eq_refl). exists (fun lg => mkE true true (e_args s0) (JArr y) x lg). rewrite Hp, Hb. split; [eexists; reflexivity|].
      intros lg. eexists. apply start_step. unfold start, check. cbn [e_parsed e_success e_ret as_array e_op e_args e_log fst snd]. rewrite Hid'. cbn [fst snd bind e_ret].
      split; [reflexivity|]. exact Es2.
    - destruct (Hck false eq_refl) as [Hp Hb]. injection Es2 as <-. exists (fun _ => s0). split; [exists []; reflexivity|]. intros lg. exists [].
      apply start_step. unfold start, check. rewrite Hp, Hb. auto.
    - exfalso. unfold check in Ec. destruct (e_parsed st); [discriminate|]. destruct (as_array (e_args st)) eqn:Ea; try discriminate.
      + pose proof (Hn (e_op st) a) as Hn'. destruct (oparse c (e_op st) a) as [s' [| | | |]]; try discriminate.
        injection Ec as _ ->. apply (Hn' e). reflexivity.
      + unfold as_array in Ea. destruct (e_args st); discriminate. }
  destruct Hfix as (f & (lg & ->) & Hf). clear -Hf Er. revert lg s2 a2 Er. induction n as [|n IH]; intros lg s2 a2 Er; cbn [repeat erun] in Er.
  - now injection Er as <- <-.
  - destruct (Hf lg) as (lg' & E). rewrite E in Er. cbn [bind] in Er. destruct (erun (f lg') (repeat Start n)) as [[s3 a3]| | | |] eqn:E3; cbn [bind] in Er; try discriminate.
    injection Er as <- <-. cbn [repeat]. f_equal. eapply IH. exact E3.
Qed.
