(** The RSA operations with refused requests run in step with CryptoModel.v on the calls that have all they need. *)
From Verif Require Import Base JsonModel JsonSpec JsonDenotes EniModel EniProof JsonProof2 JsonProof4 CryptoModel CryptoProof CryptoHeapModel CryptoHeapSpec CryptoHeapProof CryptoFaultModel CryptoFaultSpec.
From Coq Require Import List NArith ZArith Bool Lia Arith.
Import ListNotations.

Lemma f_drop_last o ks k m b f n : f_drop o (mkFR o (Some (length ks)) m (mkLd o (ks ++ [Some k]) b f) n) = Ret (mkLd o (ks ++ [None]) b f).
Proof. exact (drop_last o ks k m b f). Qed.

Section Both.
  Variable o : openssl.
  Variable gets : nat -> bool.
  (** what differs between the two classes *)
  Variable reader : bytes -> option (key o).
  Variable accept : bytes -> option bytes.
  Variable work : key o -> bytes -> outcome (option bytes).
  Variable out : bytes -> bytes.
  Hypothesis work_no_throw : forall k m e, work k m <> Throw e.
  Notation gv := (gv o reader accept work out).

  Definition gf_create (L : ledger o) (n : nat) (pem : bytes) : ledger o * nat * rsaptr :=
    if gets n then
      match (if gets (S n) then reader (cstr pem) else None) with
      | Some k => (mkLd o (l_keys o L ++ [Some k]) (S (l_bios o L)) (l_bufs o L), S (S n), Some (length (l_keys o L)))
      | None => (mkLd o (l_keys o L) (S (l_bios o L)) (l_bufs o L), S (S n), None)
      end
    else (L, S n, None).
  Definition gf_work (L : ledger o) (n : nat) (p : rsaptr) (m : bytes) : ledger o * nat * outcome (option bytes) :=
    match deref o L p with
    | Ret k =>
        if gets n then (new_buf o L, S (S n), if gets (S n) then work k m else Ret None)
        else (L, S n, Throw StdBadAlloc)
    | Throw e => (L, n, Throw e) | UB u => (L, n, UB u) | Diverge => (L, n, Diverge) | Exit x => (L, n, Exit x)
    end.
  Definition gf (L : ledger o) (n : nat) : opclass :=
    mkOp (frsa o) (mkFR o None [] L n)
      (fun s args =>
         fail s (str_arg args 0) (fun pem =>
         let '(L, n, p) := gf_create (fr_led o s) (fr_n o s) pem in
         let s := mkFR o p (fr_msg o s) L n in
         match p with
         | None => (s, Ret false)
         | Some _ => fail s (str_arg args 1) (fun h =>
             match accept h with
             | None => (s, Ret false)
             | Some c => (mkFR o p c L n, Ret true)
             end)
         end))
      (f_rsa_gas o)
      (fun s l =>
         let '(L, n, r) := gf_work (fr_led o s) (fr_n o s) (fr_key o s) (fr_msg o s) in
         let s := mkFR o (fr_key o s) (fr_msg o s) L n in
         match r with
         | Ret (Some m) => (s, l ++ [JStr (out m)], Ret true)
         | Ret None => (s, l, Ret false)
         | Throw e => (s, l, Throw e)
         | UB u => (s, l, UB u)
         | Diverge => (s, l, Diverge)
         | Exit x => (s, l, Exit x)
         end).

  Variable L : ledger o.
  Variable n0 : nat.
  Variable vs : list jvalue.
  Notation K := (l_keys o L).
  Notation B := (l_bios o L).
  Notation F := (l_bufs o L).
  Notation gf0 := (gf L n0).

  Lemma f_refused calls : forall s ret l, exists l', erun (@mkE gf0 true false (JArr vs) ret s l) calls = Ret (mkE true false (JArr vs) ret s l', map refusal calls).
  Proof.
    induction calls as [|[|] calls IH]; intros s ret l; cbn [erun map]; [eexists; reflexivity| |];
      (cbn [estep get_gas start check e_parsed e_success ecatch bind]; destruct (IH s ret l) as (l' & ->); exists l'; reflexivity).
  Qed.

  (** the arguments, when they are looked at *)
  Lemma f_parse_refused pem vs' s : vs = JStr pem :: vs' ->
    (gets (fr_n o s) = false \/ gets (S (fr_n o s)) = false \/ reader (cstr pem) = None) ->
    exists n', oparse gf0 s vs = (mkFR o None (fr_msg o s) (mkLd o (l_keys o (fr_led o s)) (l_bios o (fr_led o s) + if gets (fr_n o s) then 1 else 0) (l_bufs o (fr_led o s))) n', Ret false).
  Proof.
    intros -> H. cbn [oparse gf]. rewrite str_arg0. cbn [fail]. unfold gf_create. destruct (fr_led o s) as [ks b f] eqn:EL. cbn [l_keys l_bios l_bufs].
    destruct (gets (fr_n o s)); [|rewrite Nat.add_0_r; eexists; reflexivity].
    replace (if gets (S (fr_n o s)) then reader (cstr pem) else None) with (@None (key o)). { rewrite Nat.add_1_r. eexists. reflexivity. }
    destruct H as [| [-> | ->]]; [discriminate|reflexivity|]. destruct (gets _); reflexivity.
  Qed.
  Lemma f_parse_key pem vs' s k : vs = JStr pem :: vs' -> gets (fr_n o s) = true -> gets (S (fr_n o s)) = true -> reader (cstr pem) = Some k ->
    forall s', s' = mkFR o (Some (length (l_keys o (fr_led o s)))) (fr_msg o s) (mkLd o (l_keys o (fr_led o s) ++ [Some k]) (S (l_bios o (fr_led o s))) (l_bufs o (fr_led o s))) (S (S (fr_n o s))) ->
    oparse gf0 s vs = fail s' (str_arg vs 1) (fun h => match accept h with None => (s', Ret false) | Some c => (mkFR o (fr_key o s') c (fr_led o s') (fr_n o s'), Ret true) end).
  Proof. intros -> H1 H2 H3 s' ->. cbn [oparse gf]. rewrite str_arg0. cbn [fail]. unfold gf_create. rewrite H1, H2, H3. reflexivity. Qed.

  Lemma f_accepted k c calls : forall n f l l1 l2 st1 answers, (forall v, In v l -> wfj v) ->
    erun (@mkE gv true true (JArr vs) (JArr l) (mkRS o (Some k) c) l1) (fine (fates gets n calls)) = Ret (st1, answers) ->
    exists st2 n', erun (@mkE gf0 true true (JArr vs) (JArr l) (mkFR o (Some (length K)) c (mkLd o (K ++ [Some k]) (S B) f) n) l2) calls = Ret (st2, weave (fates gets n calls) answers) /\
      e_op st2 = mkFR o (Some (length K)) c (mkLd o (K ++ [Some k]) (S B) (f + got (fates gets n calls))) n'.
  Proof.
    induction calls as [|[|] calls IH]; intros n f l l1 l2 st1 answers Hl H; cbn [erun fates fine weave] in *.
    - injection H as <- <-. do 2 eexists. split; [reflexivity|]. cbn [e_op]. rewrite Nat.add_0_r. reflexivity.
    - cbn [erun estep get_gas check e_parsed e_success ecatch bind ogas CryptoHeapProof.gv gf e_op rsa_gas r_key log] in *. unfold f_rsa_gas, log. cbn [fr_led fr_key]. rewrite deref_last. cbn [bind ecatch] in *.
      match type of H with context [erun ?x (fine (fates gets n calls))] => destruct (erun x (fine (fates gets n calls))) as [[st as_]| | | |] eqn:E; try discriminate end. cbn [bind] in H. injection H as <- <-. cbn [e_parsed e_success e_args e_ret e_op e_log] in *.
      match goal with |- context [mkE true true (JArr vs) (JArr l) _ (?l2 ++ ?x)] => destruct (IH n f l _ (l2 ++ x) _ _ Hl E) as (st2 & n' & E' & E2) end. exists st2, n'. rewrite E'. split; [reflexivity|exact E2].
    - cbn [estep start check e_parsed e_success ecatch bind orun gf e_op e_ret e_args as_array fr_led fr_key fr_msg fr_n]. unfold gf_work, new_buf. rewrite deref_last. cbn [l_keys l_bios l_bufs].
      destruct (gets n); cbn [fine weave] in *.
      2: { cbn [bind ecatch]. match goal with |- context [mkE true true (JArr vs) (JArr l) _ (?l2 ++ ?x)] => destruct (IH (S n) f l _ (l2 ++ x) _ _ Hl H) as (st2 & n' & E' & E2) end. exists st2, n'. rewrite E'. split; [reflexivity|exact E2]. }
      destruct (gets (S n)); cbn [fine weave] in *.
      2: { cbn [bind ecatch]. match goal with |- context [mkE true true (JArr vs) (JArr l) _ (?l2 ++ ?x)] => destruct (IH (S (S n)) (S f) l _ (l2 ++ x) _ _ Hl H) as (st2 & n' & E' & E2) end. exists st2, n'. rewrite E'. split; [reflexivity|]. rewrite E2. unfold got. cbn [filter length]. do 2 f_equal. lia. }
      cbn [erun estep start check e_parsed e_success ecatch bind orun CryptoHeapProof.gv e_op e_ret e_args as_array r_key r_msg] in H.
      destruct (work k c) as [[m|]|e|u| |x] eqn:Ew; try discriminate; try (now apply work_no_throw in Ew); cbn [bind ecatch] in H |- *.
      + assert (Hl' : forall v, In v (l ++ [JStr (out m)]) -> wfj v) by (intros v Hv; apply in_app_iff in Hv as [Hv|[<-|[]]]; [auto|constructor]).
        destruct (print_total (JArr (l ++ [JStr (out m)])) (W_arr _ Hl')) as (t & Et). rewrite Et in *. cbn [bind ecatch] in H |- *.
        match type of H with context [erun ?x (fine ?y)] => destruct (erun x (fine y)) as [[st as_]| | | |] eqn:E; try discriminate end. cbn [bind] in H. injection H as <- <-.
        match goal with |- context [mkE true true (JArr vs) _ _ (?l2 ++ ?x)] => destruct (IH (S (S n)) (S f) _ _ (l2 ++ x) _ _ Hl' E) as (st2 & n' & E' & E2) end. exists st2, n'. rewrite E'. split; [reflexivity|]. rewrite E2. unfold got. cbn [filter length]. do 2 f_equal. lia.
      + match type of H with context [erun ?x (fine ?y)] => destruct (erun x (fine y)) as [[st as_]| | | |] eqn:E; try discriminate end. cbn [bind] in H. injection H as <- <-.
        match goal with |- context [mkE true true (JArr vs) _ _ (?l2 ++ ?x)] => destruct (IH (S (S n)) (S f) _ _ (l2 ++ x) _ _ Hl E) as (st2 & n' & E' & E2) end. exists st2, n'. rewrite E'. split; [reflexivity|]. rewrite E2. unfold got. cbn [filter length]. do 2 f_equal. lia.
  Qed.

  (** a missing message: every call throws and makes another key, until memory is refused *)
  Definition fptr (j : nat) : rsaptr := match j with O => None | S j => Some (length K + j) end.
  Definition fstate (k : key o) (j n : nat) : frsa o := mkFR o (fptr j) [] (mkLd o (K ++ repeat (Some k) j) (B + j) F) n.
  Lemma f_throwing pem k calls : vs = [JStr pem] -> reader (cstr pem) = Some k -> forall t j n l, t <= length calls ->
    (forall i, i < t -> gets (n + 2 * i) = true /\ gets (S (n + 2 * i)) = true) ->
    exists l', erun (@mkE gf0 false false (JArr vs) (JArr []) (fstate k j n) l) calls =
      ('(st, as_) <- erun (@mkE gf0 false false (JArr vs) (JArr []) (fstate k (j + t) (n + 2 * t)) l') (skipn t calls) ;; Ret (st, repeat (Threw OutOfRangeVector) t ++ as_)).
  Proof.
    intros -> Hr. assert (HT : str_arg [JStr pem] 1 = Throw OutOfRangeVector) by reflexivity.
    induction calls as [|c calls IH]; intros t j n l Ht Hg.
    - cbn in Ht. replace t with 0 by lia. exists l. rewrite !Nat.add_0_r. reflexivity.
    - destruct t as [|t]. { exists l. cbn [skipn repeat app Nat.mul]. rewrite !Nat.add_0_r. destruct (erun _ (c :: calls)) as [[st as_]| | | |]; reflexivity. }
      destruct (Hg 0 ltac:(lia)) as (G1 & G2). rewrite Nat.add_0_r in G1, G2.
      assert (EP : oparse gf0 (fstate k j n) [JStr pem] = (fstate k (S j) (S (S n)), Throw OutOfRangeVector)).
      { assert (EK : (K ++ repeat (Some k) j) ++ [Some k] = K ++ repeat (Some k) (S j)). { rewrite <- app_assoc. f_equal. change [Some k] with (repeat (Some k) 1). rewrite <- repeat_app. f_equal. lia. }
        cbn [oparse gf]. rewrite str_arg0. cbn [fail]. unfold gf_create, fstate. cbn [fr_n fr_led fr_msg l_keys l_bios l_bufs]. rewrite G1, G2, Hr, HT. cbn [fail]. rewrite EK, app_length, repeat_length, Nat.add_succ_r. reflexivity. }
      assert (ES : estep (@mkE gf0 false false (JArr [JStr pem]) (JArr []) (fstate k j n) l) c =
        Ret (@mkE gf0 false false (JArr [JStr pem]) (JArr []) (fstate k (S j) (S (S n))) (l ++ [EParse None]), Threw OutOfRangeVector)).
      { destruct c; unfold estep, get_gas, start, check; cbn [e_parsed e_args as_array e_op]; rewrite EP; reflexivity. }
      cbn [erun skipn]. rewrite ES. cbn [bind].
      destruct (IH t (S j) (S (S n)) (l ++ [EParse None])) as (l' & E). { cbn in Ht. lia. } { intros i Hi. specialize (Hg (S i) ltac:(lia)). replace (S (S n) + 2 * i) with (n + 2 * S i) by lia. exact Hg. }
      exists l'. rewrite E. clear E IH. replace (S j + t) with (j + S t) by lia. replace (S (S n) + 2 * t) with (n + 2 * S t) by lia.
      destruct (erun _ (skipn t calls)) as [[st as_]| | | |]; reflexivity.
  Qed.

  Lemma f_none_given calls : vs = [] -> forall s l, exists l', erun (@mkE gf0 false false (JArr vs) (JArr []) s l) calls = Ret (mkE false false (JArr vs) (JArr []) s l', map (fun _ => Threw OutOfRangeVector) calls).
  Proof.
    intros ->. induction calls as [|c calls IH]; intros s l; [eexists; reflexivity|]. cbn [erun map].
    assert (E4 : estep (@mkE gf0 false false (JArr []) (JArr []) s l) c = Ret (@mkE gf0 false false (JArr []) (JArr []) s (l ++ [EParse None]), Threw OutOfRangeVector)) by (destruct c; reflexivity).
    rewrite E4. cbn [bind]. destruct (IH s (l ++ [EParse None])) as (l' & ->). eexists. reflexivity.
  Qed.
End Both.
