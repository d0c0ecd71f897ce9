(** Objects and calls of the C functions when memory is refused. *)
From Verif Require Import Base JsonModel JsonSpec JsonDenotes EniModel EniProof JsonProof2 JsonProof4 CryptoModel CryptoProof CryptoHeapModel CryptoHeapSpec CryptoHeapProof CryptoFaultModel CryptoFaultSpec CryptoFaultProof.
From Coq Require Import List NArith ZArith Bool Lia Arith.
Import ListNotations.

Lemma refused_any (c : opclass) calls : forall args ret s l, exists st, erun (@mkE c true false args ret s l) calls = Ret (st, map refusal calls).
Proof.
  induction calls as [|[|] calls IH]; intros args ret s l; cbn [erun map]; [eexists; reflexivity| |];
    (cbn [estep get_gas start check e_parsed e_success ecatch bind]; destruct (IH args ret s l) as (st & ->); eexists; reflexivity).
Qed.

Section Object.
  Variable o : openssl.
  Variable gets : nat -> bool.
  Variable reader : bytes -> option (key o).
  Variable accept : bytes -> option bytes.
  Variable work : key o -> bytes -> outcome (option bytes).
  Variable out : bytes -> bytes.
  Hypothesis work_no_throw : forall k m e, work k m <> Throw e.
  Notation gv := (gv o reader accept work out).
  Notation gf := (gf o gets reader accept work out).
  Definition unread (c : opclass) (vs : list jvalue) : ebase c := @mkE c false false (JArr vs) (JArr []) (oinit c) [].

  Lemma gf_served L n pem m vs2 k c calls st1 answers : reader (cstr pem) = Some k -> accept m = Some c -> gets n = true -> gets (S n) = true ->
    erun (unread gv (JStr pem :: JStr m :: vs2)) (fine (fates gets (S (S n)) calls)) = Ret (st1, answers) ->
    exists st2 L', erun (unread (gf L n) (JStr pem :: JStr m :: vs2)) calls = Ret (st2, weave (fates gets (S (S n)) calls) answers) /\
      f_drop o (e_op st2) = Ret L' /\ more o L L' (mkLeft (Nat.min (length calls) 1) (got (fates gets (S (S n)) calls)) 0) /\
      (calls <> [] -> l_keys o (fr_led o (e_op st2)) = l_keys o L ++ [Some k] /\ l_bios o (fr_led o (e_op st2)) = S (l_bios o L) /\ l_bufs o (fr_led o (e_op st2)) = l_bufs o L + got (fates gets (S (S n)) calls)).
  Proof.
    intros Hr Ha G1 G2 H. unfold unread in *. cbn [oinit CryptoHeapProof.gv CryptoFaultProof.gf] in *. destruct calls as [|c0 calls].
    { cbn [fates fine erun] in H. injection H as <- <-. do 2 eexists. split; [reflexivity|]. split; [reflexivity|]. split; [unfold more; cbn; lia|congruence]. }
    assert (EP1 : oparse gv (mkRS o None []) (JStr pem :: JStr m :: vs2) = (mkRS o (Some k) c, Ret true)) by (cbn [oparse CryptoHeapProof.gv]; rewrite str_arg0; cbn [fail]; rewrite Hr, str_arg1; cbn [fail]; rewrite Ha; reflexivity).
    assert (EP2 : oparse (gf L n) (mkFR o None [] L n) (JStr pem :: JStr m :: vs2) = (mkFR o (Some (length (l_keys o L))) c (mkLd o (l_keys o L ++ [Some k]) (S (l_bios o L)) (l_bufs o L)) (S (S n)), Ret true)).
    { rewrite (f_parse_key o gets reader accept work out L n (JStr pem :: JStr m :: vs2) pem (JStr m :: vs2) (mkFR o None [] L n) k eq_refl G1 G2 Hr _ eq_refl). rewrite str_arg1. cbn [fail]. rewrite Ha. reflexivity. }
    assert (H' : exists st1' l1, erun (@mkE gv true true (JArr (JStr pem :: JStr m :: vs2)) (JArr []) (mkRS o (Some k) c) l1) (fine (fates gets (S (S n)) (c0 :: calls))) = Ret (st1', answers)).
    { destruct (fine (fates gets (S (S n)) (c0 :: calls))) as [|c1 cs]. { injection H as <- <-. exists (@mkE gv true true (JArr (JStr pem :: JStr m :: vs2)) (JArr []) (mkRS o (Some k) c) []), []. reflexivity. }
      rewrite (checked_once gv _ (JArr []) _ _ _ [] c1 cs EP1) in H. eauto. }
    destruct H' as (st1' & l1 & H'). rewrite (checked_once (gf L n) _ (JArr []) _ _ _ [] c0 calls EP2).
    destruct (f_accepted o gets reader accept work out work_no_throw L n (JStr pem :: JStr m :: vs2) k c (c0 :: calls) _ (l_bufs o L) [] l1 ([] ++ [EParse (Some true)]) _ _ (fun v Hv => match Hv with end) H') as (st2 & n' & E & E2).
    eexists _, _. split; [exact E|]. rewrite E2. split; [apply f_drop_last|]. split.
    - unfold more. cbn [l_bios l_bufs lost_bios lost_bufs lost_keys length]. rewrite alive_app. destruct L. unfold alive. cbn. lia.
    - intros _. cbn. auto.
  Qed.

  Lemma gf_refused L n pem vs' calls :
    gets n = false \/ gets (S n) = false \/ reader (cstr pem) = None \/ (exists m vs2, vs' = JStr m :: vs2 /\ accept m = None) ->
    exists st2 L', erun (unread (gf L n) (JStr pem :: vs')) calls = Ret (st2, map refusal calls) /\
      f_drop o (e_op st2) = Ret L' /\ more o L L' (mkLeft (if gets n then Nat.min (length calls) 1 else 0) 0 0).
  Proof.
    intros H. unfold unread. cbn [oinit CryptoFaultProof.gf]. destruct calls as [|c0 calls].
    { do 2 eexists. split; [reflexivity|]. split; [reflexivity|]. unfold more. cbn. destruct (gets n); lia. }
    assert (Hc : (gets n = false \/ gets (S n) = false \/ reader (cstr pem) = None) \/ (gets n = true /\ gets (S n) = true /\ exists k m vs2, reader (cstr pem) = Some k /\ vs' = JStr m :: vs2 /\ accept m = None)).
    { destruct (gets n); auto. destruct (gets (S n)); auto. destruct (reader (cstr pem)) as [k|]; auto. right. destruct H as [|[|[|(m & vs2 & H1 & H2)]]]; try discriminate. eauto 10. }
    destruct Hc as [Hc|(G1 & G2 & k & m & vs2 & Hr & -> & Ha)].
    - destruct (f_parse_refused o gets reader accept work out L n (JStr pem :: vs') pem vs' (mkFR o None [] L n) eq_refl Hc) as (n' & EP). cbn [fr_n fr_led fr_msg] in EP.
      rewrite (checked_once (gf L n) _ (JArr []) _ _ _ [] c0 calls EP). destruct (f_refused o gets reader accept work out L n (JStr pem :: vs') (c0 :: calls) (mkFR o None [] (mkLd o (l_keys o L) (l_bios o L + (if gets n then 1 else 0)) (l_bufs o L)) n') (JArr []) ([] ++ [EParse (Some false)])) as (l' & E).
      do 2 eexists. split; [exact E|]. split; [reflexivity|]. unfold more, alive. cbn. destruct (gets n); lia.
    - assert (EP : oparse (gf L n) (mkFR o None [] L n) (JStr pem :: JStr m :: vs2) = (mkFR o (Some (length (l_keys o L))) [] (mkLd o (l_keys o L ++ [Some k]) (S (l_bios o L)) (l_bufs o L)) (S (S n)), Ret false)).
      { rewrite (f_parse_key o gets reader accept work out L n (JStr pem :: JStr m :: vs2) pem (JStr m :: vs2) (mkFR o None [] L n) k eq_refl G1 G2 Hr _ eq_refl). rewrite str_arg1. cbn [fail]. rewrite Ha. reflexivity. }
      rewrite (checked_once (gf L n) _ (JArr []) _ _ _ [] c0 calls EP). match type of EP with _ = (?s, _) => destruct (f_refused o gets reader accept work out L n (JStr pem :: JStr m :: vs2) (c0 :: calls) s (JArr []) ([] ++ [EParse (Some false)])) as (l' & E) end.
      do 2 eexists. split; [exact E|]. split; [apply f_drop_last|]. rewrite G1. unfold more. cbn [l_bios l_bufs lost_bios lost_bufs lost_keys length]. rewrite alive_app. destruct L. unfold alive. cbn. lia.
  Qed.

  Lemma gf_lacking L n pem k calls t : reader (cstr pem) = Some k -> t <= length calls ->
    (forall i, i < t -> gets (n + 2 * i) = true /\ gets (S (n + 2 * i)) = true) ->
    (t < length calls -> gets (n + 2 * t) = false \/ gets (S (n + 2 * t)) = false) ->
    exists st2 L', erun (unread (gf L n) [JStr pem]) calls = Ret (st2, repeat (Threw OutOfRangeVector) t ++ map refusal (skipn t calls)) /\
      f_drop o (e_op st2) = Ret L' /\
      more o L L' (mkLeft (t + if (t <? length calls) && gets (n + 2 * t) then 1 else 0) 0 (if t <? length calls then t else pred t)) /\
      (t = length calls -> more o L (fr_led o (e_op st2)) (mkLeft t 0 t)).
  Proof.
    intros Hr Ht Hg Hd. unfold unread. cbn [oinit CryptoFaultProof.gf].
    destruct (f_throwing o gets reader accept work out work_no_throw L n [JStr pem] pem k calls eq_refl Hr t 0 n [] Ht Hg) as (l' & E).
    unfold fstate in E. cbn [fptr repeat Nat.add] in E. rewrite app_nil_r, Nat.add_0_r in E. replace (mkLd o (l_keys o L) (l_bios o L) (l_bufs o L)) with L in E by (destruct L; reflexivity). rewrite E. clear E.
    destruct (t <? length calls) eqn:Hlt.
    - apply Nat.ltb_lt in Hlt. specialize (Hd Hlt). destruct (skipn t calls) as [|c0 cs] eqn:Es. { apply (f_equal (@length _)) in Es. rewrite skipn_length in Es. cbn in Es. lia. }
      match goal with |- context [mkE false false _ _ ?s _] => assert (EP : exists n', oparse (gf L n) s [JStr pem] = (mkFR o None [] (mkLd o (l_keys o L ++ repeat (Some k) t) (l_bios o L + t + if gets (n + 2 * t) then 1 else 0) (l_bufs o L)) n', Ret false)) end.
      { match goal with |- context [oparse _ ?s _] => destruct (f_parse_refused o gets reader accept work out L n [JStr pem] pem [] s eq_refl) as (n' & EP) end. { cbn [fr_n]. tauto. } exists n'. exact EP. }
      destruct EP as (n' & EP). rewrite (checked_once (gf L n) _ (JArr []) _ _ _ l' c0 cs EP).
      match type of EP with _ = (?s, _) => destruct (f_refused o gets reader accept work out L n [JStr pem] (c0 :: cs) s (JArr []) (l' ++ [EParse (Some false)])) as (l2 & E) end. rewrite E. cbn [bind].
      do 2 eexists. split; [reflexivity|]. split; [reflexivity|]. split; [|lia]. unfold more. cbn [e_op fr_led l_bios l_bufs lost_bios lost_bufs lost_keys andb]. rewrite alive_app, alive_repeat. destruct L. unfold alive. cbn. destruct (gets _); lia.
    - apply Nat.ltb_ge in Hlt. assert (t = length calls) as Et by lia. rewrite skipn_all2 by lia. cbn [erun bind map app andb].
      destruct t as [|t].
      + eexists. exists (mkLd o (l_keys o L ++ []) (l_bios o L + 0) (l_bufs o L)). split; [reflexivity|]. split; [reflexivity|]. cbn [e_op fr_led repeat]. rewrite app_nil_r. destruct L. split; [|intros _]; unfold more, alive; cbn; lia.
      + eexists. exists (mkLd o ((l_keys o L ++ repeat (Some k) t) ++ [None]) (l_bios o L + S t) (l_bufs o L)). split; [reflexivity|]. cbn [e_op fptr].
        assert (EK : l_keys o L ++ repeat (Some k) (S t) = (l_keys o L ++ repeat (Some k) t) ++ [Some k]). { rewrite <- app_assoc. f_equal. change [Some k] with (repeat (Some k) 1). rewrite <- repeat_app. f_equal. lia. }
        cbn [Nat.add]. rewrite EK. replace (length (l_keys o L) + t) with (length (l_keys o L ++ repeat (Some k) t)) by (rewrite app_length, repeat_length; lia). rewrite f_drop_last. split; [reflexivity|]. cbn [fr_led].
        unfold more. cbn [l_bios l_bufs lost_bios lost_bufs lost_keys pred]. rewrite !alive_app, alive_repeat. destruct L. unfold alive. cbn. lia.
  Qed.

  (** ** One call of a C function *)
  Definition gf_call (L : ledger o) (n : nat) (vs : list jvalue) (f : ecall) : outcome (ledger o * nat * eanswer) :=
    '(st, a) <- estep (unread (gf L n) vs) f ;;
    let s := e_op st in
    match a with
    | Threw _ => Ret (fr_led o s, fr_n o s, a)
    | _ => L' <- f_drop o s ;; Ret (L', fr_n o s, a)
    end.
  Definition lost_with (args : list ast) (a : eanswer) : nat := match args, a with _ :: _, Threw _ => 1 | _, _ => 0 end.
  Definition g_call_leaves (f : ecall) (args : list ast) : leaving :=
    let x := g_leaves o reader accept args [f] in
    if g_lacking o reader args then mkLeft (lost_bios x) (lost_bufs x) 1 else x.

  Lemma erun_one (c : opclass) (st : ebase c) f st2 a : erun st [f] = Ret (st2, [a]) -> estep st f = Ret (st2, a).
  Proof. cbn [erun]. destruct (estep st f) as [[st' a']| | | |]; try discriminate. cbn [bind]. intros H. injection H as -> ->. reflexivity. Qed.

  Lemma gf_call_ok L n vs args f st1 a : Forall2 denotes vs args -> erun (unread gv vs) [f] = Ret (st1, [a]) ->
    exists L' n' a', gf_call L n vs f = Ret (L', n', a') /\ (a' = a \/ admits f a') /\
      alive o L' = alive o L + lost_with args a' /\ l_bios o L' <= S (l_bios o L) /\ l_bufs o L' <= S (l_bufs o L) /\
      ((forall i, i < 4 -> gets (n + i) = true) -> a' = a /\ more o L L' (g_call_leaves f args)).
  Proof.
    intros Hf H. unfold gf_call.
    destruct args as [|x args].
    { inversion Hf; subst vs. destruct (none_given o reader accept work out L [] [f] eq_refl _ (mkHR o None [] L) _ [] _ _ H) as (Ea & _). injection Ea as ->.
      destruct (f_none_given o gets reader accept work out L n [] [f] eq_refl (mkFR o None [] L n) []) as (l' & E). apply erun_one in E. unfold unread. cbn [oinit CryptoFaultProof.gf]. rewrite E. cbn [bind e_op fr_led fr_n].
      do 3 eexists. split; [reflexivity|]. split; [auto|]. cbn. split; [lia|]. split; [lia|]. split; [lia|]. intros _. split; [reflexivity|]. unfold more, g_call_leaves. cbn. lia. }
    inversion Hf as [|v ? vs' ? Hd Hf']; subst.
    assert (Hcase : (exists pem, x = AStr pem) \/ forall s, x <> AStr s) by (destruct x; eauto; right; discriminate). destruct Hcase as [(pem & ->)|Hns].
    2: { exfalso. assert (Es : str_arg (v :: vs') 0 = UB TypeConfusion). { unfold str_arg. rewrite arg_head. cbn [bind]. now apply (not_string v x). }
         revert H. unfold unread. destruct f; cbn [erun]; unfold estep, get_gas, start, check; cbn [e_parsed e_args as_array e_op oparse CryptoHeapProof.gv]; rewrite Es; discriminate. }
    inversion Hd; subst.
    (* refused, whatever the reason *)
    assert (Hrefused : forall vs'', vs' = vs'' -> gets n = false \/ gets (S n) = false \/ reader (cstr pem) = None \/ (exists m vs2, vs'' = JStr m :: vs2 /\ accept m = None) ->
      (gets n = true -> gets (S n) = true -> a = refusal f /\ g_call_leaves f (AStr pem :: args) = mkLeft 1 0 0) ->
      exists L' n' a', gf_call L n (JStr pem :: vs') f = Ret (L', n', a') /\ (a' = a \/ admits f a') /\
        alive o L' = alive o L + lost_with (AStr pem :: args) a' /\ l_bios o L' <= S (l_bios o L) /\ l_bufs o L' <= S (l_bufs o L) /\
        ((forall i, i < 4 -> gets (n + i) = true) -> a' = a /\ more o L L' (g_call_leaves f (AStr pem :: args)))).
    { intros vs'' <- Hr Hv. destruct (gf_refused L n pem vs' [f] Hr) as (st2 & L' & E & E2 & M). apply erun_one in E. unfold gf_call. rewrite E. cbn [bind].
      exists L', (fr_n o (e_op st2)), (refusal f). split; [destruct f; cbn [refusal]; rewrite E2; reflexivity|]. split; [unfold admits; auto|]. destruct M as (M1 & M2 & M3). cbn [lost_bios lost_bufs lost_keys length Nat.min] in M1, M2, M3.
      split; [destruct f; cbn; lia|]. split; [destruct (gets n); lia|]. split; [lia|]. intros G. pose proof (G 0 ltac:(lia)) as G0. pose proof (G 1 ltac:(lia)) as G1. rewrite Nat.add_0_r in G0. rewrite Nat.add_1_r in G1.
      destruct (Hv G0 G1) as (-> & ->). split; [reflexivity|]. rewrite G0 in M1. unfold more. cbn. lia. }
    fold (gf_call L n (JStr pem :: vs') f).
    destruct (reader (cstr pem)) as [k|] eqn:Er.
    2: { apply (Hrefused vs' eq_refl); [auto|]. intros _ _. split.
         - assert (EP1 : oparse gv (mkRS o None []) (JStr pem :: vs') = (mkRS o None [], Ret false)) by (cbn [oparse CryptoHeapProof.gv]; rewrite str_arg0; cbn [fail]; rewrite Er; reflexivity).
           unfold unread in H. cbn [oinit CryptoHeapProof.gv] in H. rewrite (checked_once gv _ (JArr []) _ _ _ [] f [] EP1) in H. match type of H with erun (mkE _ _ ?x ?y ?s ?l) _ = _ => destruct (refused_any gv [f] x y s l) as (st & E) end. rewrite E in H. cbn [map] in H. now injection H as _ <-.
         - unfold g_call_leaves, g_leaves, g_lacking. rewrite Er. destruct args; reflexivity. }
    destruct args as [|b args].
    { inversion Hf'; subst vs'. destruct (keeps_throwing o reader accept work out L [JStr pem] pem k [f] eq_refl Er 0 _ _ [] _ _ H) as (Ea & _). injection Ea as ->.
      destruct (gets n) eqn:G0; [|apply (Hrefused [] eq_refl); [auto|]; congruence]. destruct (gets (S n)) eqn:G1; [|apply (Hrefused [] eq_refl); [auto|]; congruence].
      destruct (gf_lacking L n pem k [f] 1 Er ltac:(cbn; lia)) as (st2 & L' & E & _ & _ & M). { intros i Hi. replace i with 0 by lia. rewrite Nat.add_0_r. auto. } { cbn. lia. }
      cbn [repeat skipn map app] in E. apply erun_one in E. specialize (M eq_refl). unfold gf_call. rewrite E. cbn [bind]. exists (fr_led o (e_op st2)), (fr_n o (e_op st2)), (Threw OutOfRangeVector). split; [reflexivity|]. split; [auto|].
      destruct M as (M1 & M2 & M3). cbn [lost_bios lost_bufs lost_keys lost_with] in *. repeat (split; [lia|]). intros _. split; [reflexivity|]. unfold more, g_call_leaves, g_leaves, g_lacking. rewrite Er. cbn. lia. }
    inversion Hf' as [|v ? vs2 ? Hd2 Hf2]; subst.
    assert (Hcase : (exists m, b = AStr m) \/ forall s, b <> AStr s) by (destruct b; eauto; right; discriminate). destruct Hcase as [(m & ->)|Hns].
    2: { exfalso. assert (Es : str_arg (JStr pem :: v :: vs2) 1 = UB TypeConfusion). { unfold str_arg. rewrite arg_second. cbn [bind]. now apply (not_string v b). }
         revert H. unfold unread. destruct f; cbn [erun]; unfold estep, get_gas, start, check; cbn [e_parsed e_args as_array e_op oparse CryptoHeapProof.gv]; rewrite str_arg0; cbn [fail]; rewrite Er, Es; discriminate. }
    inversion Hd2; subst. destruct (accept m) as [c|] eqn:Ea.
    2: { apply (Hrefused _ eq_refl); [eauto 10|]. intros _ _. split.
         - assert (EP1 : oparse gv (mkRS o None []) (JStr pem :: JStr m :: vs2) = (mkRS o (Some k) [], Ret false)) by (cbn [oparse CryptoHeapProof.gv]; rewrite str_arg0; cbn [fail]; rewrite Er, str_arg1; cbn [fail]; rewrite Ea; reflexivity).
           unfold unread in H. cbn [oinit CryptoHeapProof.gv] in H. rewrite (checked_once gv _ (JArr []) _ _ _ [] f [] EP1) in H. match type of H with erun (mkE _ _ ?x ?y ?s ?l) _ = _ => destruct (refused_any gv [f] x y s l) as (st & E) end. rewrite E in H. cbn [map] in H. now injection H as _ <-.
         - unfold g_call_leaves, g_leaves, g_lacking. rewrite Er, Ea. reflexivity. }
    destruct (gets n) eqn:G0; [|apply (Hrefused _ eq_refl); [auto|]; congruence]. destruct (gets (S n)) eqn:G1; [|apply (Hrefused _ eq_refl); [auto|]; congruence].
    assert (Hl : g_call_leaves f (AStr pem :: AStr m :: args) = mkLeft 1 (starts [f]) 0) by (unfold g_call_leaves, g_leaves, g_lacking; rewrite Er, Ea; reflexivity).
    assert (HnT : forall e, a <> Threw e).
    { assert (EP1 : oparse gv (mkRS o None []) (JStr pem :: JStr m :: vs2) = (mkRS o (Some k) c, Ret true)) by (cbn [oparse CryptoHeapProof.gv]; rewrite str_arg0; cbn [fail]; rewrite Er, str_arg1; cbn [fail]; rewrite Ea; reflexivity).
      pose proof H as H0. unfold unread in H0. cbn [oinit CryptoHeapProof.gv] in H0. rewrite (checked_once gv _ (JArr []) _ _ _ [] f [] EP1) in H0.
      destruct (accepted o reader accept work out L _ k c [f] work_no_throw (l_bufs o L) [] _ _ ([] ++ [EParse (Some true)]) _ _ eq_refl (fun v Hv => match Hv with end) H0) as (_ & _ & _ & Hn). inversion Hn; assumption. }
    (* all that is asked is there *)
    assert (Hfine : fates gets (S (S n)) [f] = [(f, Fine)] -> exists L' n' a', gf_call L n (JStr pem :: JStr m :: vs2) f = Ret (L', n', a') /\ a' = a /\ more o L L' (mkLeft 1 (starts [f]) 0)).
    { intros Hx. destruct (gf_served L n pem m vs2 k c [f] st1 [a] Er Ea G0 G1) as (st2 & L' & E & E2 & M & _). { rewrite Hx. exact H. } rewrite Hx in E, M. cbn [weave] in E. apply erun_one in E. unfold gf_call. rewrite E. cbn [bind].
      exists L', (fr_n o (e_op st2)), a. split; [destruct a; [rewrite E2; reflexivity|rewrite E2; reflexivity|exfalso; now apply (HnT e)]|]. split; [reflexivity|].
      replace (got [(f, Fine)]) with (starts [f]) in M by (destruct f; reflexivity). exact M. }
    assert (Hs : starts [f] <= 1) by (destruct f; cbn; lia).
    assert (Hcase : fates gets (S (S n)) [f] = [(f, Fine)] \/ fates gets (S (S n)) [f] <> [(f, Fine)]).
    { destruct f; cbn [fates]; [auto|]. destruct (gets (S (S n))); [destruct (gets (S (S (S n))))|]; auto; right; discriminate. }
    destruct Hcase as [Hx|Hx].
    { destruct (Hfine Hx) as (L' & n' & a' & E & -> & M). exists L', n', a. split; [exact E|]. split; [auto|]. pose proof M as (M1 & M2 & M3). cbn [lost_bios lost_bufs lost_keys] in *.
      assert (lost_with (AStr pem :: AStr m :: args) a = 0) as -> by (destruct a; auto; exfalso; now apply (HnT e)). split; [lia|]. split; [lia|]. split; [lia|]. intros _. split; [reflexivity|]. rewrite Hl. exact M. }
    destruct f; [contradiction|]. cbn [fates] in Hx.
    assert (G23 : ~ forall i, i < 4 -> gets (n + i) = true).
    { intros G. apply Hx. pose proof (G 2 ltac:(lia)) as G2. pose proof (G 3 ltac:(lia)) as G3. rewrite Nat.add_comm in G2, G3. cbn [Nat.add] in G2, G3. now rewrite G2, G3. }
    destruct (gf_served L n pem m vs2 k c [Start] (unread gv (JStr pem :: JStr m :: vs2)) [] Er Ea G0 G1) as (st2 & L' & E & E2 & M & M0).
    { cbn [fates]. destruct (gets (S (S n))); [destruct (gets (S (S (S n)))); [contradiction|]|]; reflexivity. }
    specialize (M0 ltac:(discriminate)). cbn [fates] in E, M, M0. unfold gf_call. destruct (gets (S (S n))); [destruct (gets (S (S (S n)))); [contradiction|]|]; cbn [weave] in E; apply erun_one in E; rewrite E; cbn [bind].
    - rewrite E2. cbn [bind]. do 3 eexists. split; [reflexivity|]. split; [right; left; reflexivity|]. destruct M as (M1 & M2 & M3). cbn in *. repeat (split; [lia|]). intros G. now apply G23 in G.
    - do 3 eexists. split; [reflexivity|]. split; [right; right; auto|]. destruct M0 as (M1 & M2 & M3). cbn [lost_with got filter length] in *.
      split. { unfold alive. rewrite M1, filter_app, app_length. reflexivity. } split; [lia|]. split; [lia|]. intros G. now apply G23 in G.
  Qed.
End Object.
