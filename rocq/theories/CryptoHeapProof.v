(** The RSA operations with their OpenSSL objects run in step with CryptoModel.v. *)
From Verif Require Import Base JsonModel JsonSpec JsonDenotes EniModel EniProof JsonProof2 JsonProof4 CryptoModel CryptoProof CryptoHeapModel CryptoHeapSpec.
From Coq Require Import List NArith ZArith Bool Lia Arith.
Import ListNotations.

Section Ledger.
  Variable o : openssl.
  Lemma deref_last ks k b f : deref o (mkLd o (ks ++ [Some k]) b f) (Some (length ks)) = Ret k.
  Proof. unfold deref. cbn [l_keys]. rewrite nth_error_app2, Nat.sub_diag by lia. reflexivity. Qed.

  Lemma alive_app ks1 ks2 b f : alive o (mkLd o (ks1 ++ ks2) b f) = alive o (mkLd o ks1 b f) + alive o (mkLd o ks2 b f).
  Proof. unfold alive. cbn [l_keys]. now rewrite filter_app, app_length. Qed.
  Lemma alive_repeat k n b f : alive o (mkLd o (repeat (Some k) n) b f) = n.
  Proof. unfold alive. cbn [l_keys]. induction n; cbn; auto. Qed.
  Lemma alive_any b f b' f' ks : alive o (mkLd o ks b f) = alive o (mkLd o ks b' f').
  Proof. reflexivity. Qed.

  Lemma drop_last ks k m b f : h_drop o (mkHR o (Some (length ks)) m (mkLd o (ks ++ [Some k]) b f)) = Ret (mkLd o (ks ++ [None]) b f).
  Proof.
    unfold h_drop, h_destroy. cbn [hr_led hr_key]. rewrite deref_last. cbn [bind l_keys l_bios l_bufs]. rewrite firstn_app, Nat.sub_diag, firstn_all, skipn_app, skipn_all2, app_nil_r by lia.
    replace (S (length ks) - length ks) with 1 by lia. reflexivity.
  Qed.

End Ledger.

Section Both.
  Variable o : openssl.
  (** what differs between the two classes *)
  Variable reader : bytes -> option (key o).
  Variable accept : bytes -> option bytes.
  Variable work : key o -> bytes -> outcome (option bytes).
  Variable out : bytes -> bytes.

  Definition gv : opclass :=
    mkOp (rsast o) (mkRS o None [])
      (fun s args =>
         fail s (str_arg args 0) (fun pem =>
         match reader (cstr pem) with
         | None => (mkRS o None (r_msg o s), Ret false)
         | Some k => fail (mkRS o (Some k) (r_msg o s)) (str_arg args 1) (fun h =>
             match accept h with
             | None => (mkRS o (Some k) (r_msg o s), Ret false)
             | Some c => (mkRS o (Some k) c, Ret true)
             end)
         end))
      (rsa_gas o)
      (fun s l =>
         match r_key o s with
         | None => (s, l, UB NullDeref)
         | Some k =>
             match work k (r_msg o s) with
             | Ret (Some m) => (s, l ++ [JStr (out m)], Ret true)
             | Ret None => (s, l, Ret false)
             | Throw e => (s, l, Throw e)
             | UB u => (s, l, UB u)
             | Diverge => (s, l, Diverge)
             | Exit n => (s, l, Exit n)
             end
         end).

  Definition g_create (L : ledger o) (pem : bytes) : ledger o * rsaptr :=
    match reader (cstr pem) with
    | Some k => (mkLd o (l_keys o L ++ [Some k]) (S (l_bios o L)) (l_bufs o L), Some (length (l_keys o L)))
    | None => (mkLd o (l_keys o L) (S (l_bios o L)) (l_bufs o L), None)
    end.
  Definition g_work (L : ledger o) (p : rsaptr) (m : bytes) : ledger o * outcome (option bytes) :=
    match deref o L p with
    | Ret k => (new_buf o L, work k m)
    | Throw e => (L, Throw e) | UB u => (L, UB u) | Diverge => (L, Diverge) | Exit n => (L, Exit n)
    end.
  Definition gh (L : ledger o) : opclass :=
    mkOp (hrsa o) (mkHR o None [] L)
      (fun s args =>
         fail s (str_arg args 0) (fun pem =>
         let (L, p) := g_create (hr_led o s) pem in
         let s := mkHR o p (hr_msg o s) L in
         match p with
         | None => (s, Ret false)
         | Some _ => fail s (str_arg args 1) (fun h =>
             match accept h with
             | None => (s, Ret false)
             | Some c => (mkHR o p c L, Ret true)
             end)
         end))
      (h_rsa_gas o)
      (fun s l =>
         let (L, r) := g_work (hr_led o s) (hr_key o s) (hr_msg o s) in
         let s := mkHR o (hr_key o s) (hr_msg o s) L in
         match r with
         | Ret (Some m) => (s, l ++ [JStr (out m)], Ret true)
         | Ret None => (s, l, Ret false)
         | Throw e => (s, l, Throw e)
         | UB u => (s, l, UB u)
         | Diverge => (s, l, Diverge)
         | Exit n => (s, l, Exit n)
         end).

  Variable L : ledger o.
  Variable vs : list jvalue.
  Notation K := (l_keys o L).
  Notation B := (l_bios o L).
  Notation F := (l_bufs o L).

  (** refused arguments: both objects answer the same for ever *)
  Lemma refused calls : forall s1 s2 ret l1 l2 st1 answers, erun (@mkE gv true false (JArr vs) ret s1 l1) calls = Ret (st1, answers) ->
    exists l2', erun (@mkE (gh L) true false (JArr vs) ret s2 l2) calls = Ret (mkE true false (JArr vs) ret s2 l2', answers) /\ Forall (fun a => forall e, a <> Threw e) answers.
  Proof.
    induction calls as [|[|] calls IH]; intros s1 s2 ret l1 l2 st1 answers H; cbn [erun] in *; [injection H as <- <-; eexists; split; [reflexivity|constructor]| |];
      (cbn [estep get_gas start check e_parsed e_success ecatch bind] in *;
       destruct (erun (@mkE gv true false (JArr vs) ret s1 l1) calls) as [[st as_]| | | |] eqn:E; try discriminate; cbn [bind] in H; injection H as <- <-;
       destruct (IH _ s2 _ _ l2 _ _ E) as (l2' & E' & Hn); exists l2'; rewrite E'; (split; [reflexivity|]); (constructor; [discriminate|exact Hn])).
  Qed.

  (** accepted arguments *)
  Lemma accepted k c calls : (forall k m e, work k m <> Throw e) -> forall f l ret1 l1 l2 st1 answers, ret1 = JArr l -> (forall v, In v l -> wfj v) ->
    erun (@mkE gv true true (JArr vs) ret1 (mkRS o (Some k) c) l1) calls = Ret (st1, answers) ->
    exists st2, erun (@mkE (gh L) true true (JArr vs) ret1 (mkHR o (Some (length K)) c (mkLd o (K ++ [Some k]) (S B) f)) l2) calls = Ret (st2, answers) /\
      e_op st2 = mkHR o (Some (length K)) c (mkLd o (K ++ [Some k]) (S B) (f + starts calls)) /\ Forall (fun a => forall e, a <> Threw e) answers.
  Proof.
    intros work_no_throw. induction calls as [|[|] calls IH]; intros f l ret1 l1 l2 st1 answers -> Hl H; cbn [erun] in *.
    - injection H as <- <-. eexists. split; [reflexivity|]. cbn [e_op]. rewrite Nat.add_0_r. split; [reflexivity|constructor].
    - cbn [estep get_gas check e_parsed e_success ecatch bind ogas gv gh e_op rsa_gas r_key h_rsa_gas hr_led hr_key log] in *. unfold h_rsa_gas, log. cbn [hr_led hr_key]. rewrite deref_last. cbn [bind ecatch] in *.
      match type of H with context [erun ?x calls] => destruct (erun x calls) as [[st as_]| | | |] eqn:E; try discriminate end. cbn [bind] in H. injection H as <- <-. cbn [e_parsed e_success e_args e_ret e_op e_log] in *.
      match goal with |- context [mkE true true (JArr vs) (JArr l) _ (?l2 ++ ?x)] => destruct (IH f l _ _ (l2 ++ x) _ _ eq_refl Hl E) as (st2 & E' & E2 & E3) end. exists st2. rewrite E'. split; [reflexivity|]. split; [exact E2|]. constructor; [discriminate|exact E3].
    - cbn [estep start check e_parsed e_success ecatch bind orun gv gh e_op e_ret e_args as_array r_key r_msg hr_led hr_key hr_msg g_work] in *. unfold g_work, new_buf in *. rewrite deref_last. cbn [new_buf l_keys l_bios l_bufs] in *.
      destruct (work k c) as [[m|]|e|u| |x] eqn:Ew; try discriminate; try (now apply work_no_throw in Ew); cbn [bind ecatch] in H |- *.
      + assert (Hl' : forall v, In v (l ++ [JStr (out m)]) -> wfj v) by (intros v Hv; apply in_app_iff in Hv as [Hv|[<-|[]]]; [auto|constructor]).
        destruct (print_total (JArr (l ++ [JStr (out m)])) (W_arr _ Hl')) as (t & Et). rewrite Et in *. cbn [bind ecatch] in H |- *.
        match type of H with context [erun ?x calls] => destruct (erun x calls) as [[st as_]| | | |] eqn:E; try discriminate end. cbn [bind] in H. injection H as <- <-.
        match goal with |- context [mkE true true (JArr vs) _ _ (?l2 ++ ?x)] => destruct (IH (S f) _ _ _ (l2 ++ x) _ _ eq_refl Hl' E) as (st2 & E' & E2 & E3) end. exists st2. unfold starts in *. cbn [filter length]. rewrite E'. split; [reflexivity|]. split; [rewrite E2; do 2 f_equal; lia|]. constructor; [discriminate|exact E3].
      + match type of H with context [erun ?x calls] => destruct (erun x calls) as [[st as_]| | | |] eqn:E; try discriminate end. cbn [bind] in H. injection H as <- <-.
        match goal with |- context [mkE true true (JArr vs) _ _ (?l2 ++ ?x)] => destruct (IH (S f) _ _ _ (l2 ++ x) _ _ eq_refl Hl E) as (st2 & E' & E2 & E3) end. exists st2. unfold starts in *. cbn [filter length]. rewrite E'. split; [reflexivity|]. split; [rewrite E2; do 2 f_equal; lia|]. constructor; [discriminate|exact E3].
  Qed.

  (** a missing message: every call throws and makes another key *)
  Definition ptr (n : nat) : rsaptr := match n with O => None | S n => Some (length K + n) end.
  Lemma keeps_throwing pem k calls : vs = [JStr pem] -> reader (cstr pem) = Some k -> forall n s1 l1 l2 st1 answers,
    erun (@mkE gv false false (JArr vs) (JArr []) s1 l1) calls = Ret (st1, answers) ->
    answers = map (fun _ => Threw OutOfRangeVector) calls /\
    exists st2, erun (@mkE (gh L) false false (JArr vs) (JArr []) (mkHR o (ptr n) [] (mkLd o (K ++ repeat (Some k) n) (B + n) F)) l2) calls = Ret (st2, answers) /\
      e_op st2 = mkHR o (ptr (n + length calls)) [] (mkLd o (K ++ repeat (Some k) (n + length calls)) (B + (n + length calls)) F).
  Proof.
    intros -> Hr. assert (HT : str_arg [JStr pem] 1 = Throw OutOfRangeVector) by reflexivity.
    induction calls as [|c calls IH]; intros n s1 l1 l2 st1 answers H.
    - injection H as <- <-. split; [reflexivity|]. eexists. split; [reflexivity|]. cbn [e_op length]. now rewrite Nat.add_0_r.
    - cbn [erun] in *.
      assert (E1 : exists l1', estep (@mkE gv false false (JArr [JStr pem]) (JArr []) s1 l1) c = Ret (@mkE gv false false (JArr [JStr pem]) (JArr []) (mkRS o (Some k) (r_msg o s1)) l1', Threw OutOfRangeVector)).
      { assert (EP : oparse gv s1 [JStr pem] = (mkRS o (Some k) (r_msg o s1), Throw OutOfRangeVector)) by (cbn [oparse gv]; rewrite str_arg0; cbn [fail]; rewrite Hr, HT; reflexivity).
        exists (l1 ++ [EParse None]). destruct c; unfold estep, get_gas, start, check; cbn [e_parsed e_args as_array e_op]; rewrite EP; reflexivity. }
      destruct E1 as (l1' & E1). rewrite E1 in H. cbn [bind] in H.
      match type of H with context [erun ?x calls] => destruct (erun x calls) as [[st as_]| | | |] eqn:E; try discriminate end. cbn [bind] in H. injection H as <- <-.
      destruct (IH (S n) _ _ (l2 ++ [EParse None]) _ _ E) as (-> & st2 & E2 & E3). split; [reflexivity|]. exists st2.
      assert (E4 : estep (@mkE (gh L) false false (JArr [JStr pem]) (JArr []) (mkHR o (ptr n) [] (mkLd o (K ++ repeat (Some k) n) (B + n) F)) l2) c =
        Ret (@mkE (gh L) false false (JArr [JStr pem]) (JArr []) (mkHR o (ptr (S n)) [] (mkLd o (K ++ repeat (Some k) (S n)) (B + S n) F)) (l2 ++ [EParse None]), Threw OutOfRangeVector)).
      { assert (EK : (K ++ repeat (Some k) n) ++ [Some k] = K ++ repeat (Some k) (S n)). { rewrite <- app_assoc. f_equal. change [Some k] with (repeat (Some k) 1). rewrite <- repeat_app. f_equal. lia. }
        assert (EP : ptr (S n) = Some (length (K ++ repeat (Some k) n))). { cbn [ptr]. now rewrite app_length, repeat_length. }
        match goal with |- context [@mkE (gh L) _ _ _ _ ?s _] => assert (EO : oparse (gh L) s [JStr pem] = (mkHR o (ptr (S n)) [] (mkLd o (K ++ repeat (Some k) (S n)) (B + S n) F), Throw OutOfRangeVector)) by (cbn [oparse gh]; rewrite str_arg0; cbn [fail]; unfold g_create; cbn [l_keys l_bios l_bufs hr_led hr_msg]; rewrite Hr, HT, EK, EP, Nat.add_succ_r; reflexivity) end.
        destruct c; unfold estep, get_gas, start, check; cbn [e_parsed e_args as_array e_op]; rewrite EO; reflexivity. }
      rewrite E4. cbn [bind]. rewrite E2. cbn [bind]. split; [reflexivity|]. rewrite E3. cbn [length]. replace (S n + length calls) with (n + S (length calls)) by lia. reflexivity.
  Qed.

  (** no arguments: every call throws *)
  Lemma none_given calls : vs = [] -> forall s1 s2 l1 l2 st1 answers,
    erun (@mkE gv false false (JArr vs) (JArr []) s1 l1) calls = Ret (st1, answers) ->
    answers = map (fun _ => Threw OutOfRangeVector) calls /\
    exists st2, erun (@mkE (gh L) false false (JArr vs) (JArr []) s2 l2) calls = Ret (st2, answers) /\ e_op st2 = s2.
  Proof.
    intros ->. assert (HT : str_arg [] 0 = Throw OutOfRangeVector) by reflexivity.
    induction calls as [|c calls IH]; intros s1 s2 l1 l2 st1 answers H.
    - injection H as <- <-. split; [reflexivity|]. eexists. split; reflexivity.
    - cbn [erun] in *.
      assert (E1 : exists l1', estep (@mkE gv false false (JArr []) (JArr []) s1 l1) c = Ret (@mkE gv false false (JArr []) (JArr []) s1 l1', Threw OutOfRangeVector)).
      { exists (l1 ++ [EParse None]). destruct c; reflexivity. }
      destruct E1 as (l1' & E1). rewrite E1 in H. cbn [bind] in H.
      match type of H with context [erun ?x calls] => destruct (erun x calls) as [[st as_]| | | |] eqn:E; try discriminate end. cbn [bind] in H. injection H as <- <-.
      destruct (IH _ s2 _ (l2 ++ [EParse None]) _ _ E) as (-> & st2 & E2 & E3). split; [reflexivity|]. exists st2.
      assert (E4 : estep (@mkE (gh L) false false (JArr []) (JArr []) s2 l2) c = Ret (@mkE (gh L) false false (JArr []) (JArr []) s2 (l2 ++ [EParse None]), Threw OutOfRangeVector)) by (destruct c; reflexivity).
      rewrite E4. cbn [bind]. rewrite E2. split; [reflexivity|exact E3].
  Qed.

End Both.

(** the arguments are looked at once, if that succeeds *)
Lemma checked_once (c : opclass) args ret s s' b l call calls : oparse c s args = (s', Ret b) ->
  erun (@mkE c false false (JArr args) ret s l) (call :: calls) = erun (@mkE c true b (JArr args) ret s' (l ++ [EParse (Some b)])) (call :: calls).
Proof. intros EP. destruct call; cbn [erun]; unfold estep, get_gas, start, check; cbn [e_parsed e_args as_array e_op]; rewrite EP; reflexivity. Qed.

(** ** An object *)
Section Object.
  Variable o : openssl.
  Variable reader : bytes -> option (key o).
  Variable accept : bytes -> option bytes.
  Variable work : key o -> bytes -> outcome (option bytes).
  Variable out : bytes -> bytes.
  Hypothesis work_no_throw : forall k m e, work k m <> Throw e.
  Notation gv := (gv o reader accept work out).
  Notation gh := (gh o reader accept work out).

  (** what the arguments make of an object *)
  Definition g_leaves (args : list ast) (calls : list ecall) : leaving :=
    let n := length calls in
    match args with
    | AStr pem :: rest =>
        match reader (cstr pem) with
        | Some _ =>
          match rest with
          | [] => mkLeft n 0 (pred n)
          | AStr m :: _ => mkLeft (Nat.min n 1) (match accept m with Some _ => starts calls | None => 0 end) 0
          | _ => mkLeft 0 0 0
          end
        | None => mkLeft (Nat.min n 1) 0 0
        end
    | _ => mkLeft 0 0 0
    end.
  Definition g_lacking (args : list ast) : bool := match args with [AStr pem] => match reader (cstr pem) with Some _ => true | None => false end | _ => false end.

  Lemma g_object L vs args calls st1 answers : Forall2 denotes vs args ->
    erun (@mkE gv false false (JArr vs) (JArr []) (mkRS o None []) []) calls = Ret (st1, answers) ->
    exists st2 L', erun (@mkE (gh L) false false (JArr vs) (JArr []) (mkHR o None [] L) []) calls = Ret (st2, answers) /\ h_drop o (e_op st2) = Ret L' /\ more o L L' (g_leaves args calls) /\
      (g_lacking args = true \/ args = [] -> answers = map (fun _ => Threw OutOfRangeVector) calls /\ more o L (hr_led o (e_op st2)) (mkLeft (lost_bios (g_leaves args calls)) 0 (if g_lacking args then length calls else 0))) /\
      (g_lacking args = false -> args <> [] -> Forall (fun a => forall e, a <> Threw e) answers).
  Proof.
    intros Hf H. destruct calls as [|c0 calls].
    { injection H as <- <-. eexists _, L. split; [reflexivity|]. split; [reflexivity|]. assert (Hz : g_leaves args [] = mkLeft 0 0 0).
      { unfold g_leaves. destruct args as [|[z|x|pem|xs|ms] rest]; auto. cbn. destruct (reader (cstr pem)); [|reflexivity]. destruct rest as [|[z|x|m|xs|ms] rest]; auto. destruct (accept m); reflexivity. }
      rewrite Hz. split; [unfold more; cbn; lia|]. split; [|constructor]. intros _. split; [reflexivity|]. cbn [e_op hr_led map length]. unfold more. cbn. destruct (g_lacking args); cbn; lia. }
    destruct L as [K B F]. set (L := mkLd o K B F).
    (* the first argument *)
    destruct args as [|a args].
    { inversion Hf; subst vs. destruct (none_given o reader accept work out L [] (c0 :: calls) eq_refl _ (mkHR o None [] L) _ [] _ _ H) as (-> & st2 & E & E2). exists st2, L. split; [exact E|]. rewrite E2. split; [reflexivity|]. cbn [g_leaves g_lacking]. split; [unfold more; cbn; lia|]. split; [|congruence]. intros _. split; [reflexivity|]. unfold more. cbn. lia. }
    inversion Hf as [|v ? vs' ? Hd Hf']; subst.
    assert (Hcase : (exists pem, a = AStr pem) \/ forall s, a <> AStr s) by (destruct a; eauto; right; discriminate). destruct Hcase as [(pem & ->)|Hns].
    2: { exfalso. assert (Es : str_arg (v :: vs') 0 = UB TypeConfusion). { unfold str_arg. rewrite arg_head. cbn [bind]. now apply (not_string v a). }
         revert H. destruct c0; cbn [erun]; unfold estep, get_gas, start, check; cbn [e_parsed e_args as_array e_op oparse CryptoHeapProof.gv]; rewrite Es; discriminate. }
    inversion Hd; subst. cbn [g_leaves g_lacking].
    destruct (reader (cstr pem)) as [k|] eqn:Er.
    2: { assert (EP1 : oparse gv (mkRS o None []) (JStr pem :: vs') = (mkRS o None [], Ret false)) by (cbn [oparse CryptoHeapProof.gv]; rewrite str_arg0; cbn [fail]; rewrite Er; reflexivity).
         assert (EP2 : oparse (gh L) (mkHR o None [] L) (JStr pem :: vs') = (mkHR o None [] (mkLd o K (S B) F), Ret false)) by (cbn [oparse CryptoHeapProof.gh]; rewrite str_arg0; cbn [fail]; unfold g_create; rewrite Er; reflexivity).
         pose proof (checked_once gv _ (JArr []) _ _ _ [] c0 calls EP1) as C1. rewrite C1 in H. rewrite (checked_once (gh L) _ (JArr []) _ _ _ [] c0 calls EP2).
         destruct (refused o reader accept work out L _ _ _ (mkHR o None [] (mkLd o K (S B) F)) _ _ ([] ++ [EParse (Some false)]) _ _ H) as (l2' & E & Hn). eexists _, _. split; [exact E|]. split; [reflexivity|].
         split; [unfold more, L, alive; cbn; lia|]. split; [|intros _ _; exact Hn]. destruct args; intros [|]; discriminate. }
    destruct args as [|b args].
    { inversion Hf'; subst vs'. destruct (keeps_throwing o reader accept work out L [JStr pem] pem k (c0 :: calls) eq_refl Er 0 _ _ [] _ _ H) as (-> & st2 & E & E2).
      cbn [ptr repeat] in E. rewrite app_nil_r, Nat.add_0_r in E. change (l_keys o L) with K in E. change (l_bios o L) with B in E. change (l_bufs o L) with F in E. fold L in E.
      remember (length calls) as n. exists st2, (mkLd o ((K ++ repeat (Some k) n) ++ [None]) (B + S n) F). split; [exact E|].
      assert (E3 : e_op st2 = mkHR o (Some (length (K ++ repeat (Some k) n))) [] (mkLd o ((K ++ repeat (Some k) n) ++ [Some k]) (B + S n) F)).
      { rewrite E2. cbn [length Nat.add]. rewrite <- Heqn. cbn [ptr]. change (l_keys o L) with K. change (l_bios o L) with B. change (l_bufs o L) with F. rewrite app_length, repeat_length. assert (EK : K ++ repeat (Some k) (S n) = (K ++ repeat (Some k) n) ++ [Some k]) by (rewrite <- app_assoc; f_equal; change [Some k] with (repeat (Some k) 1); rewrite <- repeat_app; f_equal; lia). rewrite EK. reflexivity. }
      rewrite E3, drop_last. split; [reflexivity|]. cbn [length hr_led lost_bios]. rewrite <- Heqn. unfold more. cbn [l_bios l_bufs lost_bios lost_bufs lost_keys pred]. rewrite !alive_app, (alive_repeat o k n).
      split; [unfold L, alive; cbn; lia|]. split; [|congruence]. intros _. split; [reflexivity|]. unfold L, alive; cbn. lia. }
    inversion Hf' as [|v ? vs2 ? Hd2 Hf2]; subst.
    assert (Hcase : (exists m, b = AStr m) \/ forall s, b <> AStr s) by (destruct b; eauto; right; discriminate). destruct Hcase as [(m & ->)|Hns].
    2: { exfalso. assert (Es : str_arg (JStr pem :: v :: vs2) 1 = UB TypeConfusion). { unfold str_arg. rewrite arg_second. cbn [bind]. now apply (not_string v b). }
         revert H. destruct c0; cbn [erun]; unfold estep, get_gas, start, check; cbn [e_parsed e_args as_array e_op oparse CryptoHeapProof.gv]; rewrite str_arg0; cbn [fail]; rewrite Er, Es; discriminate. }
    inversion Hd2; subst. destruct (accept m) as [c|] eqn:Ea.
    2: { assert (EP1 : oparse gv (mkRS o None []) (JStr pem :: JStr m :: vs2) = (mkRS o (Some k) [], Ret false)) by (cbn [oparse CryptoHeapProof.gv]; rewrite str_arg0; cbn [fail]; rewrite Er, str_arg1; cbn [fail]; rewrite Ea; reflexivity).
         assert (EP2 : oparse (gh L) (mkHR o None [] L) (JStr pem :: JStr m :: vs2) = (mkHR o (Some (length K)) [] (mkLd o (K ++ [Some k]) (S B) F), Ret false)) by (cbn [oparse CryptoHeapProof.gh]; rewrite str_arg0; cbn [fail]; unfold g_create; rewrite Er, str_arg1; cbn [fail]; rewrite Ea; reflexivity).
         pose proof (checked_once gv _ (JArr []) _ _ _ [] c0 calls EP1) as C1. rewrite C1 in H. rewrite (checked_once (gh L) _ (JArr []) _ _ _ [] c0 calls EP2).
         destruct (refused o reader accept work out L _ _ _ (mkHR o (Some (length K)) [] (mkLd o (K ++ [Some k]) (S B) F)) _ _ ([] ++ [EParse (Some false)]) _ _ H) as (l2' & E & Hn). eexists _, _. split; [exact E|]. cbn [e_op]. split; [apply drop_last|].
         unfold more. cbn [l_bios l_bufs lost_bios lost_bufs lost_keys]. rewrite alive_app. split; [unfold L, alive; cbn; lia|]. split; [|intros _ _; exact Hn]. intros [|]; discriminate. }
    assert (EP1 : oparse gv (mkRS o None []) (JStr pem :: JStr m :: vs2) = (mkRS o (Some k) c, Ret true)) by (cbn [oparse CryptoHeapProof.gv]; rewrite str_arg0; cbn [fail]; rewrite Er, str_arg1; cbn [fail]; rewrite Ea; reflexivity).
    assert (EP2 : oparse (gh L) (mkHR o None [] L) (JStr pem :: JStr m :: vs2) = (mkHR o (Some (length K)) c (mkLd o (K ++ [Some k]) (S B) F), Ret true)) by (cbn [oparse CryptoHeapProof.gh]; rewrite str_arg0; cbn [fail]; unfold g_create; rewrite Er, str_arg1; cbn [fail]; rewrite Ea; reflexivity).
    pose proof (checked_once gv _ (JArr []) _ _ _ [] c0 calls EP1) as C1. rewrite C1 in H. rewrite (checked_once (gh L) _ (JArr []) _ _ _ [] c0 calls EP2).
    destruct (accepted o reader accept work out L _ k c (c0 :: calls) work_no_throw F [] _ _ ([] ++ [EParse (Some true)]) _ _ eq_refl (fun v Hv => match Hv with end) H) as (st2 & E & E2 & Hn). eexists _, _. split; [exact E|].
    rewrite E2. split; [apply drop_last|]. unfold more. cbn [l_bios l_bufs lost_bios lost_bufs lost_keys]. rewrite alive_app. split; [unfold L, alive; cbn; lia|]. split; [|intros _ _; exact Hn]. intros [|]; discriminate.
  Qed.
End Object.

(** ** The two classes *)

Lemma pub_encrypt_no_throw o k m e : pub_encrypt o k m <> Throw e.
Proof. unfold pub_encrypt, copy_out. destruct (raw_pub_encrypt o k _); [|discriminate]. destruct (Nat.leb _ _); discriminate. Qed.
Lemma priv_decrypt_no_throw o k m e : priv_decrypt o k m <> Throw e.
Proof.
  unfold priv_decrypt, read_out, string_of_buffer. destruct (raw_priv_decrypt o k _) as [c|]; [|discriminate]. destruct (Nat.leb _ _); [|discriminate].
  destruct (existsb _ c); [discriminate|]. destruct (Nat.ltb _ _); discriminate.
Qed.

Section Classes.
  Variable o : openssl.

  Lemma encrypt_leaves args calls : g_leaves o (read_pub o) Some args calls = object_leaves o Encrypt args calls.
  Proof. unfold g_leaves, object_leaves. destruct args as [|[z|x|pem|xs|ms] rest]; auto. cbn [is_key takes]. destruct (read_pub o (cstr pem)); reflexivity. Qed.
  Lemma decrypt_leaves args calls : g_leaves o (read_priv o) hex2str args calls = object_leaves o Decrypt args calls.
  Proof.
    unfold g_leaves, object_leaves. destruct args as [|[z|x|pem|xs|ms] rest]; auto. cbn [is_key takes]. destruct (read_priv o (cstr pem)); [|reflexivity].
    destruct rest as [|[z|x|m|xs|ms] rest]; auto. rewrite hex2str_even. destruct (Nat.even (length m)); reflexivity.
  Qed.
  Lemma encrypt_lacking args : g_lacking o (read_pub o) args = lacking o Encrypt args.
  Proof. reflexivity. Qed.
  Lemma decrypt_lacking args : g_lacking o (read_priv o) args = lacking o Decrypt args.
  Proof. reflexivity. Qed.

  (** an object of either class in step with CryptoModel.v *)
  Lemma both_ops w L vs args calls st1 answers : Forall2 denotes vs args ->
    erun (@mkE (v_op o w) false false (JArr vs) (JArr []) (oinit (v_op o w)) []) calls = Ret (st1, answers) ->
    exists st2 L', erun (@mkE (h_op o w L) false false (JArr vs) (JArr []) (oinit (h_op o w L)) []) calls = Ret (st2, answers) /\
      h_drop o (h_state o w L (e_op st2)) = Ret L' /\ more o L L' (object_leaves o w args calls) /\
      (lacking o w args = true \/ args = [] -> answers = map (fun _ => Threw OutOfRangeVector) calls /\ more o L (hr_led o (h_state o w L (e_op st2))) (mkLeft (lost_bios (object_leaves o w args calls)) 0 (if lacking o w args then length calls else 0))) /\
      (lacking o w args = false -> args <> [] -> Forall (fun a => forall e, a <> Threw e) answers).
  Proof.
    intros Hf H. destruct w; cbn [v_op h_op h_state] in *.
    - rewrite <- encrypt_leaves, <- encrypt_lacking. apply (g_object o (read_pub o) Some (pub_encrypt o) str2hex (pub_encrypt_no_throw o) L vs args calls st1 answers Hf H).
    - rewrite <- decrypt_leaves, <- decrypt_lacking. apply (g_object o (read_priv o) hex2str (priv_decrypt o) (fun m => m) (priv_decrypt_no_throw o) L vs args calls st1 answers Hf H).
  Qed.

  Lemma both_construct c c' lay s args r : (N.of_nat (length s) < 2^28)%N -> gval (readable lay) s (AArr args) r -> Forall short_keys args ->
    exists vs, Forall2 denotes vs args /\ construct c lay s = Ret (mkE false false (JArr vs) (JArr []) (oinit c) []) /\ construct c' lay s = Ret (mkE false false (JArr vs) (JArr []) (oinit c') []).
  Proof.
    intros Hs Hg Hk. destruct (construct_val c lay s _ r Hs Hg) as (v & Hb & E & Hd). destruct (construct_val c' lay s _ r Hs Hg) as (v' & Hb' & E' & _). rewrite Hb in Hb'. injection Hb' as <-.
    assert (Hk' : short_keys (AArr args)). { cbn [short_keys]. clear -Hk. induction Hk; cbn; auto. }
    specialize (Hd Hk'). inversion Hd; subst. eexists. split; [eassumption|]. split; [exact E|exact E'].
  Qed.

  Lemma object_exact w lay text args r calls answers L : (N.of_nat (length text) < 2^28)%N -> gval (readable lay) text (AArr args) r -> Forall short_keys args ->
    v_object o w lay text calls = Ret answers ->
    exists L', h_object o w lay text calls L = Ret (L', answers) /\ more o L L' (object_leaves o w args calls).
  Proof.
    intros Hs Hg Hk H. destruct (both_construct (v_op o w) (h_op o w L) lay text args r Hs Hg Hk) as (vs & Hf & E1 & E2).
    unfold v_object in H. rewrite E1 in H. cbn [bind] in H.
    destruct (erun _ calls) as [[st1 as_]| | | |] eqn:E; try discriminate. cbn [bind] in H. injection H as ->.
    destruct (both_ops w L vs args calls st1 answers Hf E) as (st2 & L' & E3 & E4 & E5 & _).
    exists L'. unfold h_object. rewrite E2. cbn [bind]. rewrite E3. cbn [bind]. rewrite E4. split; [reflexivity|exact E5].
  Qed.

  (** a call of a C function *)
  Lemma call_exact c args r a L : (N.of_nat (length (cstr (c_buf c))) < 2^28)%N -> gval (readable (c_lay c)) (cstr (c_buf c)) (AArr args) r -> Forall short_keys args ->
    v_call o c = Ret a ->
    exists L', h_call o (c_which c) (c_fun c) (c_lay c) (c_buf c) L = Ret (L', a) /\ more o L L' (call_leaves o (c_which c) (c_fun c) args) /\
      ((exists e, a = Threw e) <-> lacking o (c_which c) args = true \/ args = []).
  Proof.
    destruct c as [w f lay buf]. cbn [c_which c_fun c_lay c_buf]. intros Hs Hg Hk H. destruct (both_construct (v_op o w) (h_op o w L) lay _ args r Hs Hg Hk) as (vs & Hf & E1 & E2).
    unfold v_call in H. cbn [c_which c_fun c_lay c_buf] in H. unfold c_gas, c_run in H. rewrite E1 in H. cbn [bind] in H.
    set (st0 := @mkE (v_op o w) false false (JArr vs) (JArr []) (oinit (v_op o w)) []) in *.
    assert (Hst : exists st1, estep st0 f = Ret (st1, a)).
    { destruct f; unfold estep; [destruct (get_gas st0) as [s q]|destruct (start st0) as [s q]]; cbn [snd] in H; rewrite H; cbn [bind]; eauto. }
    destruct Hst as (st1 & Est). assert (Hrun : erun st0 [f] = Ret (st1, [a])) by (cbn [erun]; rewrite Est; reflexivity).
    destruct (both_ops w L vs args [f] st1 [a] Hf Hrun) as (st2 & L' & E3 & E4 & E5 & E6 & E7).
    unfold h_call. rewrite E2. cbn [bind]. cbn [erun] in E3.
    destruct (estep (@mkE (h_op o w L) _ _ _ _ _ _) f) as [[st3 a3]| | | |] eqn:Es; try discriminate. cbn [bind] in E3. injection E3 as -> ->.
    assert (Hcase : (lacking o w args = true \/ args = []) \/ (lacking o w args = false /\ args <> [])).
    { destruct (lacking o w args); auto. destruct args; auto. right. split; auto. discriminate. }
    cbn [bind]. destruct Hcase as [Hc|(Hc & Hne)].
    - destruct (E6 Hc) as (Ha & Hm). injection Ha as ->. eexists. split; [reflexivity|]. split; [|split; intros; [exact Hc|eauto]].
      unfold call_leaves. destruct (lacking o w args) eqn:El; [|destruct Hc as [|Hc]; [discriminate|subst args; exact Hm]].
      destruct args as [|x args]; [discriminate|]. cbn [lacking] in El. destruct x as [z|x|pem|xs|ms]; try discriminate. destruct args; [|discriminate]. cbn [object_leaves lost_bios lost_bufs lost_keys] in *. rewrite El in Hm |- *. exact Hm.
    - specialize (E7 Hc Hne). inversion E7 as [|? ? Hn _]; subst. exists L'. destruct a as [n|t|e]; [| |exfalso; now apply (Hn e)]; rewrite E4; cbn [bind]; (split; [reflexivity|]; split; [unfold call_leaves; rewrite Hc; exact E5|]; split; [intros (e & He); discriminate|intros [|]; congruence]).
  Qed.

  Lemma more_refl L : more o L L (mkLeft 0 0 0).
  Proof. unfold more. cbn. lia. Qed.
  Lemma more_trans L1 L2 L3 x y : more o L1 L2 x -> more o L2 L3 y -> more o L1 L3 (plus x y).
  Proof. unfold more, plus. cbn. lia. Qed.

  Lemma calls_exact l : Forall (proper o) l -> forall L,
    exists L', h_calls o L (map (fun x => fst (fst x)) l) = Ret (L', map snd l) /\
      more o L L' (sum (map (fun x => call_leaves o (c_which (fst (fst x))) (c_fun (fst (fst x))) (snd (fst x))) l)).
  Proof.
    induction 1 as [|[[c args] a] l (Hs & (r & Hg) & Hk & Hv) Hl IH]; intros L; cbn [map fst snd h_calls].
    - exists L. split; [reflexivity|apply more_refl].
    - destruct (call_exact c args r a L Hs Hg Hk Hv) as (L1 & E1 & M1 & _). destruct (IH L1) as (L2 & E2 & M2). exists L2. rewrite E1. cbn [bind]. rewrite E2. split; [reflexivity|].
      cbn [sum fold_right]. apply (more_trans L L1 L2); assumption.
  Qed.

  (** ** Keys *)
  Lemma object_keys w args calls : lacking o w args = false -> lost_keys (object_leaves o w args calls) = 0.
  Proof.
    unfold object_leaves, lacking. destruct args as [|[z|x|pem|xs|ms] rest]; intros H; auto. destruct rest as [|b rest]; [rewrite H; reflexivity|]. destruct (is_key o w pem); auto. destruct b; auto.
  Qed.

  Lemma keys_kept l : Forall (proper o) l -> Forall (fun x => forall e, snd x <> Threw e) l -> forall L,
    exists L', h_calls o L (map (fun x => fst (fst x)) l) = Ret (L', map snd l) /\ alive o L' = alive o L.
  Proof.
    intros Hl Ht L. destruct (calls_exact l Hl L) as (L' & E & M). exists L'. split; [exact E|]. destruct M as (_ & _ & ->).
    match goal with |- _ + lost_keys (sum ?x) = _ => enough (Hz : lost_keys (sum x) = 0) by lia end.
    clear L' E. revert Ht. induction Hl as [|[[c args] a] l (Hs & (r & Hg) & Hk & Hv) Hl IH]; intros Ht; [reflexivity|]. inversion Ht as [|? ? Ha Ht']; subst. cbn [fst snd] in *.
    cbn [map sum fold_right plus lost_keys fst snd]. rewrite (IH Ht'). destruct (call_exact c args r a L Hs Hg Hk Hv) as (_ & _ & _ & Hi).
    assert (Hla : lacking o (c_which c) args = false). { destruct (lacking o (c_which c) args); [|reflexivity]. destruct (proj2 Hi (or_introl eq_refl)) as (e & He). now apply Ha in He. }
    unfold call_leaves. rewrite Hla, object_keys by exact Hla. reflexivity.
  Qed.

  Lemma second_must_be_string c pem b rest r a : (N.of_nat (length (cstr (c_buf c))) < 2^28)%N -> gval (readable (c_lay c)) (cstr (c_buf c)) (AArr (AStr pem :: b :: rest)) r ->
    Forall short_keys (AStr pem :: b :: rest) -> is_key o (c_which c) pem = true -> (forall s, b <> AStr s) -> v_call o c <> Ret a.
  Proof.
    intros Hs Hg Hk Hp Hb. destruct c as [w f lay buf]. unfold v_call. cbn [c_which c_fun c_lay c_buf] in *. destruct (protocol (v_op o w) lay buf _ r Hs Hg Hk) as (vs & Hf & Eg & Er). rewrite Eg, Er. clear Eg Er.
    inversion Hf as [|v ? vs' ? Hd Hf']; subst. inversion Hd; subst. inversion Hf' as [|v ? vs2 ? Hd2 _]; subst.
    assert (Es : str_arg (JStr pem :: v :: vs2) 1 = UB TypeConfusion). { unfold str_arg. rewrite arg_second. cbn [bind]. now apply (not_string v b). }
    assert (Ep : snd (oparse (v_op o w) (oinit (v_op o w)) (JStr pem :: v :: vs2)) = UB TypeConfusion).
    { destruct w; cbn [v_op oparse oinit encrypt_op decrypt_op is_key] in *; rewrite str_arg0; cbn [fail]; unfold create_pubkey, create_privkey; [destruct (read_pub o (cstr pem))|destruct (read_priv o (cstr pem))]; try discriminate; rewrite Es; reflexivity. }
    destruct (oparse (v_op o w) (oinit (v_op o w)) (JStr pem :: v :: vs2)) as [s ok]. cbn [snd] in Ep. subst ok. destruct f; cbn [bind ecatch]; discriminate.
  Qed.

  Lemma never_released c args a L L' : proper o (c, args, a) -> h_call o (c_which c) (c_fun c) (c_lay c) (c_buf c) L = Ret (L', a) ->
    (forall pem rest, args = AStr pem :: rest -> l_bios o L' = S (l_bios o L)) /\
    (forall pem m rest, args = AStr pem :: AStr m :: rest -> is_key o (c_which c) pem = true -> takes (c_which c) m = true -> c_fun c = Start -> l_bufs o L' = S (l_bufs o L)) /\
    (forall pem, args = [AStr pem] -> is_key o (c_which c) pem = true -> alive o L' = S (alive o L)).
  Proof.
    intros (Hs & (r & Hg) & Hk & Hv) H. destruct (call_exact c args r a L Hs Hg Hk Hv) as (L2 & E & (M1 & M2 & M3) & _). rewrite E in H. injection H as ->.
    split; [|split].
    - intros pem rest ->. rewrite M1. destruct rest as [|b rest]; unfold call_leaves, lacking.
      + cbn [object_leaves]. destruct (is_key o (c_which c) pem); cbn [lost_bios length Nat.min]; lia.
      + cbn [object_leaves]. destruct (is_key o (c_which c) pem) eqn:Ei; [|cbn; lia]. destruct b as [z|x|m|xs|ms]; [| |cbn; lia| |];
        exfalso; apply (second_must_be_string c pem _ rest r a Hs Hg Hk Ei ltac:(discriminate)); exact Hv.
    - intros pem m rest -> Hp Ht Hf. rewrite M2. unfold call_leaves, lacking. cbn [object_leaves]. rewrite Hp, Ht, Hf. cbn. lia.
    - intros pem -> Hp. rewrite M3. unfold call_leaves, lacking. rewrite Hp. cbn [lost_keys]. lia.
  Qed.
End Classes.
