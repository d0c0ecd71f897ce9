(** The two classes and the C functions when memory is refused. *)
From Verif Require Import Base JsonModel JsonSpec JsonDenotes EniModel EniProof JsonProof2 JsonProof4 CryptoModel CryptoProof CryptoHeapModel CryptoHeapSpec CryptoHeapProof CryptoFaultModel CryptoFaultSpec CryptoFaultProof CryptoFaultProof2.
From Coq Require Import List NArith ZArith Bool Lia Arith.
Import ListNotations.

Section Classes.
  Variable o : openssl.
  Variable gets : nat -> bool.
  Definition w_reader (w : which) : bytes -> option (key o) := match w with Encrypt => read_pub o | Decrypt => read_priv o end.
  Definition w_accept (w : which) : bytes -> option bytes := match w with Encrypt => Some | Decrypt => hex2str end.
  Definition w_work (w : which) : key o -> bytes -> outcome (option bytes) := match w with Encrypt => pub_encrypt o | Decrypt => priv_decrypt o end.
  Definition w_out (w : which) : bytes -> bytes := match w with Encrypt => str2hex | Decrypt => fun m => m end.
  Lemma w_no_throw w k m e : w_work w k m <> Throw e.
  Proof. destruct w; [apply pub_encrypt_no_throw|apply priv_decrypt_no_throw]. Qed.
  Notation wv w := (gv o (w_reader w) (w_accept w) (w_work w) (w_out w)).
  Notation wf w := (gf o gets (w_reader w) (w_accept w) (w_work w) (w_out w)).

  Lemma key_iff w pem : is_key o w pem = match w_reader w (cstr pem) with Some _ => true | None => false end.
  Proof. destruct w; reflexivity. Qed.
  Lemma takes_iff w m : takes w m = match w_accept w m with Some _ => true | None => false end.
  Proof. destruct w; [reflexivity|]. cbn [takes w_accept]. rewrite hex2str_even. destruct (Nat.even _); reflexivity. Qed.

  (** objects, for the class that the proofs are about *)
  Lemma v_object_is w lay text calls : v_object o w lay text calls = (st <- construct (wv w) lay text ;; '(_, answers) <- erun st calls ;; Ret answers).
  Proof. destruct w; reflexivity. Qed.
  Lemma f_object_is w lay text calls L n : f_object o gets w lay text calls L n =
    (st <- construct (wf w L n) lay text ;; '(st, answers) <- erun st calls ;; L' <- f_drop o (e_op st) ;; Ret (L', fr_n o (e_op st), answers)).
  Proof. destruct w; reflexivity. Qed.
  Lemma f_call_is w f lay buf L n : f_call o gets w f lay buf L n =
    (st <- construct (wf w L n) lay (cstr buf) ;; '(st, a) <- estep st f ;;
     match a with Threw _ => Ret (fr_led o (e_op st), fr_n o (e_op st), a) | _ => L' <- f_drop o (e_op st) ;; Ret (L', fr_n o (e_op st), a) end).
  Proof. destruct w; reflexivity. Qed.
  Lemma v_call_is w f lay buf : v_call o (mkRC w f lay buf) =
    match f with GetGas => ecatch GasIs (c_gas (wv w) lay buf) | Start => ecatch ResultIs (c_run (wv w) lay buf) end.
  Proof. destruct w; reflexivity. Qed.

  Section Text.
    Variables (w : which) (lay : layout) (text : bytes).
    Hypothesis Hs : (N.of_nat (length text) < 2^28)%N.

    Lemma object_served pem m rest r calls answers L n : gval (readable lay) text (AArr (AStr pem :: AStr m :: rest)) r -> Forall short_keys rest ->
      is_key o w pem = true -> takes w m = true -> gets n = true -> gets (S n) = true ->
      v_object o w lay text (fine (fates gets (S (S n)) calls)) = Ret answers ->
      exists L' n', f_object o gets w lay text calls L n = Ret (L', n', weave (fates gets (S (S n)) calls) answers) /\
        more o L L' (mkLeft (Nat.min (length calls) 1) (got (fates gets (S (S n)) calls)) 0).
    Proof.
      intros Hg Hk Hp Ht G1 G2 H. rewrite key_iff in Hp. destruct (w_reader w (cstr pem)) as [k|] eqn:Er; [|discriminate]. rewrite takes_iff in Ht. destruct (w_accept w m) as [c|] eqn:Ea; [|discriminate].
      destruct (both_construct (wv w) (wf w L n) lay text _ r Hs Hg) as (vs & Hf & E1 & E2). { constructor; [exact I|]. constructor; [exact I|exact Hk]. }
      rewrite v_object_is, E1 in H. cbn [bind] in H. destruct (erun _ _) as [[st1 as_]| | | |] eqn:E; try discriminate. cbn [bind] in H. injection H as ->.
      inversion Hf as [|? ? vs' ? Hd Hf']; subst. inversion Hd; subst. inversion Hf' as [|? ? vs2 ? Hd2 _]; subst. inversion Hd2; subst.
      destruct (gf_served o gets _ _ _ (w_out w) (w_no_throw w) L n pem m vs2 k c calls st1 answers Er Ea G1 G2 E) as (st2 & L' & E3 & E4 & M & _).
      exists L', (fr_n o (e_op st2)). rewrite f_object_is, E2. cbn [bind]. unfold unread in E3. rewrite E3. cbn [bind]. rewrite E4. split; [reflexivity|exact M].
    Qed.

    Lemma object_refused pem rest r calls L n : gval (readable lay) text (AArr (AStr pem :: rest)) r -> Forall short_keys rest ->
      gets n = false \/ gets (S n) = false \/ is_key o w pem = false \/ (exists m rest', rest = AStr m :: rest' /\ takes w m = false) ->
      exists L' n', f_object o gets w lay text calls L n = Ret (L', n', map refusal calls) /\ more o L L' (mkLeft (if gets n then Nat.min (length calls) 1 else 0) 0 0).
    Proof.
      intros Hg Hk H. destruct (both_construct (wv w) (wf w L n) lay text _ r Hs Hg) as (vs & Hf & _ & E2). { constructor; [exact I|exact Hk]. }
      inversion Hf as [|? ? vs' ? Hd Hf']; subst. inversion Hd; subst.
      destruct (gf_refused o gets (w_reader w) (w_accept w) (w_work w) (w_out w) (w_no_throw w) L n pem vs' calls) as (st2 & L' & E3 & E4 & M).
      { destruct H as [H|[H|[H|(m & rest' & -> & H)]]]; auto.
        - rewrite key_iff in H. destruct (w_reader w (cstr pem)); [discriminate|auto].
        - rewrite takes_iff in H. inversion Hf' as [|? ? vs2 ? Hd2 _]; subst. inversion Hd2; subst. right. right. right. exists m, vs2. split; [reflexivity|]. destruct (w_accept w m); [discriminate|reflexivity]. }
      exists L', (fr_n o (e_op st2)). rewrite f_object_is, E2. cbn [bind]. unfold unread in E3. rewrite E3. cbn [bind]. rewrite E4. split; [reflexivity|exact M].
    Qed.

    Lemma object_lacking pem r calls L n t : gval (readable lay) text (AArr [AStr pem]) r -> is_key o w pem = true -> t <= length calls ->
      (forall i, i < t -> gets (n + 2 * i) = true /\ gets (S (n + 2 * i)) = true) ->
      (t < length calls -> gets (n + 2 * t) = false \/ gets (S (n + 2 * t)) = false) ->
      exists L' n', f_object o gets w lay text calls L n = Ret (L', n', repeat (Threw OutOfRangeVector) t ++ map refusal (skipn t calls)) /\
        more o L L' (mkLeft (t + if (t <? length calls) && gets (n + 2 * t) then 1 else 0) 0 (if t <? length calls then t else pred t)).
    Proof.
      intros Hg Hp Ht G D. destruct (both_construct (wv w) (wf w L n) lay text _ r Hs Hg) as (vs & Hf & _ & E2). { constructor; [exact I|constructor]. }
      inversion Hf as [|? ? vs' ? Hd Hf']; subst. inversion Hd; subst. inversion Hf'; subst. rewrite key_iff in Hp. destruct (w_reader w (cstr pem)) as [k|] eqn:Er; [|discriminate].
      destruct (gf_lacking o gets (w_reader w) (w_accept w) (w_work w) (w_out w) (w_no_throw w) L n pem k calls t Er Ht G D) as (st2 & L' & E3 & E4 & M & _).
      exists L', (fr_n o (e_op st2)). rewrite f_object_is, E2. cbn [bind]. unfold unread in E3. rewrite E3. cbn [bind]. rewrite E4. split; [reflexivity|exact M].
    Qed.
  End Text.

  (** ** The C functions *)
  Lemma call_ok c args a L n : proper o (c, args, a) ->
    exists L' n' a', f_call o gets (c_which c) (c_fun c) (c_lay c) (c_buf c) L n = Ret (L', n', a') /\ (a' = a \/ admits (c_fun c) a') /\
      alive o L' = alive o L + lost_with args a' /\ l_bios o L' <= S (l_bios o L) /\ l_bufs o L' <= S (l_bufs o L) /\
      ((forall i, i < 4 -> gets (n + i) = true) -> a' = a /\ more o L L' (call_leaves o (c_which c) (c_fun c) args)).
  Proof.
    intros (Hs & (r & Hg) & Hk & Hv). destruct c as [w f lay buf]. cbn [c_which c_fun c_lay c_buf] in *. destruct (both_construct (wv w) (wf w L n) lay _ args r Hs Hg Hk) as (vs & Hf & E1 & E2).
    rewrite v_call_is in Hv. unfold c_gas, c_run in Hv. rewrite E1 in Hv. cbn [bind] in Hv.
    assert (Hst : exists st1, erun (unread (wv w) vs) [f] = Ret (st1, [a])).
    { unfold unread. set (st0 := @mkE (wv w) false false (JArr vs) (JArr []) (oinit (wv w)) []) in *. cbn [erun]. destruct f; unfold estep; [destruct (get_gas st0) as [s q]|destruct (start st0) as [s q]]; cbn [snd] in Hv; rewrite Hv; cbn [bind]; eauto. }
    destruct Hst as (st1 & Hst).
    destruct (gf_call_ok o gets _ _ _ (w_out w) (w_no_throw w) L n vs args f st1 a Hf Hst) as (L' & n' & a' & E3 & Ha & M1 & M2 & M3 & M4).
    exists L', n', a'. rewrite f_call_is, E2. cbn [bind]. split; [exact E3|]. repeat (split; [assumption|]). intros G. destruct (M4 G) as (-> & M). split; [reflexivity|].
    replace (call_leaves o w f args) with (g_call_leaves o (w_reader w) (w_accept w) f args); [exact M|]. unfold g_call_leaves, call_leaves.
    destruct w; cbn [w_reader w_accept]; rewrite ?encrypt_leaves, ?decrypt_leaves, ?encrypt_lacking, ?decrypt_lacking; reflexivity.
  Qed.

  Lemma parse_mono w L n s vs : fr_n o s <= fr_n o (fst (oparse (wf w L n) s vs)).
  Proof.
    cbn [oparse gf]. destruct (str_arg vs 0); cbn [fail fst]; try lia. unfold gf_create.
    destruct (gets (fr_n o s)); [|cbn [fst fr_n]; lia]. destruct (if gets (S (fr_n o s)) then w_reader w (cstr a) else None); [|cbn [fst fr_n]; lia].
    destruct (str_arg vs 1); cbn [fail fst fr_n]; try lia. destruct (w_accept w a0); cbn [fst fr_n]; lia.
  Qed.
  Lemma run_mono w L n s l : fr_n o s <= fr_n o (fst (fst (orun (wf w L n) s l))).
  Proof.
    cbn [orun gf]. unfold gf_work. destruct (deref o (fr_led o s) (fr_key o s)); cbn [fst fr_n]; try lia.
    destruct (gets (fr_n o s)); [|cbn [fst fr_n]; lia]. destruct (if gets (S (fr_n o s)) then w_work w a (fr_msg o s) else Ret None) as [[|]| | | |]; cbn [fst fr_n]; lia.
  Qed.
  Lemma check_mono w L n (st : ebase (wf w L n)) : fr_n o (e_op st) <= fr_n o (e_op (fst (check st))).
  Proof.
    unfold check. destruct (e_parsed st); [cbn; lia|]. destruct (as_array (e_args st)) as [vs| | | |]; cbn [fst]; try lia.
    pose proof (parse_mono w L n (e_op st) vs). destruct (oparse _ (e_op st) vs) as [s [b| | | |]]; exact H.
  Qed.
  Lemma step_mono w L n (st st' : ebase (wf w L n)) f a : estep st f = Ret (st', a) -> fr_n o (e_op st) <= fr_n o (e_op st').
  Proof.
    pose proof (check_mono w L n st) as Hc. unfold estep, get_gas, start. destruct f; destruct (check st) as [st1 r]; cbn [fst] in Hc; destruct r as [[|]| | | |]; try discriminate; cbn [ecatch bind];
      try (intros H; injection H as <- <-; exact Hc).
    - destruct (ogas _ _); cbn [ecatch bind]; try discriminate; intros H; injection H as <- <-; exact Hc.
    - destruct (as_array (e_ret st1)) as [l| | | |]; cbn [ecatch bind]; try discriminate; try (intros H; injection H as <- <-; exact Hc).
      pose proof (run_mono w L n (e_op st1) l) as Hr. destruct (orun _ (e_op st1) l) as [[s' l'] r]. cbn [fst] in Hr. cbn [e_ret].
      destruct (ok <- r ;; _); cbn [ecatch bind]; try discriminate; intros H; injection H as <- <-; cbn [e_op]; lia.
  Qed.
  Lemma call_mono w f lay buf L n L' n' a : f_call o gets w f lay buf L n = Ret (L', n', a) -> n <= n'.
  Proof.
    rewrite f_call_is. unfold construct. destruct (parse lay (cstr buf)) as [[ok root]| | | |]; try discriminate. cbn [bind]. destruct ok; [|discriminate]. cbn [bind].
    destruct (estep _ f) as [[st b]| | | |] eqn:E; try discriminate. apply step_mono in E. cbn [e_op oinit gf fr_n] in E. cbn [bind].
    destruct b; [destruct (f_drop o (e_op st)); try discriminate; cbn [bind]| |]; try (destruct (f_drop o (e_op st)); try discriminate; cbn [bind]); intros H; injection H as <- <- <-; exact E.
  Qed.

  Lemma calls_ok l : Forall (proper o) l -> forall L n,
    exists L' n' answers, f_calls o gets L n (map (fun x => fst (fst x)) l) = Ret (L', n', answers) /\
      Forall2 (fun x a' => a' = snd x \/ admits (c_fun (fst (fst x))) a') l answers /\
      alive o L' = alive o L + threw_with_arguments l answers /\
      l_bios o L' <= l_bios o L + length l /\ l_bufs o L' <= l_bufs o L + length l.
  Proof.
    induction 1 as [|[[c args] a] l Hp Hl IH]; intros L n; cbn [map fst snd f_calls].
    - exists L, n, []. split; [reflexivity|]. split; [constructor|]. cbn. lia.
    - destruct (call_ok c args a L n Hp) as (L1 & n1 & a1 & E1 & Ha & M1 & M2 & M3 & _). destruct (IH L1 n1) as (L2 & n2 & as_ & E2 & Has & N1 & N2 & N3).
      exists L2, n2, (a1 :: as_). rewrite E1. cbn [bind]. rewrite E2. split; [reflexivity|]. split; [constructor; assumption|]. split; [|cbn [length]; lia].
      rewrite N1, M1. unfold threw_with_arguments. cbn [combine filter]. destruct args; cbn [lost_with]; [lia|]. destruct a1; cbn [length]; lia.
  Qed.

  Lemma calls_recover l : Forall (proper o) l -> forall L n, (forall m, n <= m -> gets m = true) ->
    exists L' n', f_calls o gets L n (map (fun x => fst (fst x)) l) = Ret (L', n', map snd l) /\
      more o L L' (sum (map (fun x => call_leaves o (c_which (fst (fst x))) (c_fun (fst (fst x))) (snd (fst x))) l)).
  Proof.
    intros Hl. induction Hl as [|[[c args] a] l Hp Hl IH]; intros L n G; cbn [map fst snd f_calls].
    - exists L, n. split; [reflexivity|apply more_refl].
    - destruct (call_ok c args a L n Hp) as (L1 & n1 & a1 & E1 & _ & _ & _ & _ & M). destruct M as (-> & M). { intros i _. apply G. lia. }
      pose proof (call_mono _ _ _ _ _ _ _ _ _ E1) as Hn. destruct (IH L1 n1) as (L2 & n2 & E2 & M2). { intros m Hm. apply G. lia. }
      exists L2, n2. rewrite E1. cbn [bind]. rewrite E2. split; [reflexivity|]. cbn [sum fold_right]. apply (more_trans o L L1 L2); assumption.
  Qed.
End Classes.
