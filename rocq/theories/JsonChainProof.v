(** Following a path into a JSON document. *)
From Verif Require Import Base JsonSpec JsonModel JsonProof JsonDenotes EniModel JsonExSpec JsonExModel JsonExProof JsonExProof2 JsonExProof3 JsonChainSpec.
From Coq Require Import List NArith ZArith Bool Lia.
From Coq.Init Require Import Byte.
Import ListNotations.

Section Chain.
  Variable jsmn : bytes -> Z -> Z -> outcome (Z * list token).
  Variable to_int : Z -> Z.
  Variable inner : bytes -> layout.
  Hypothesis to_int_ok : forall z, is_int z -> to_int z = z.
  Notation run := (c_run (json_op jsmn to_int inner)).

  Lemma range_det out b e b' e' : answers_range out b e -> answers_range out b' e' -> b = b' /\ e = e'.
  Proof.
    intros (B1 & E1 & h & T1 & _ & S1 & S2) (B2 & E2 & h' & T2 & _ & S1' & S2'). destruct (gval_det _ _ _ _ _ _ (T1 (fun _ => true)) (T2 (fun _ => true))) as [Ha _]. injection Ha as <-.
    rewrite S1 in S1'. rewrite S2 in S2'. injection S1' as S1'. injection S2' as S2'. lia.
  Qed.

  Lemma document_range data b e it : document data b e it -> (0 <= begin_of it < end_of it)%Z.
  Proof. intros H. pose proof (document_nonneg _ _ _ _ H). destruct H as (pre & s & w & post & _ & _ & _ & H & _). pose proof (head_range _ _ _ _ H). lia. Qed.

  (** one step *)
  Lemma step_ok data b e root q it lay buf : document data b e root -> jsmn_answers jsmn data b e root -> part [q] root = Some it ->
    written lay buf (request data q b e) ->
    exists out, run lay buf = Ret (Some out) /\ answers_range out (begin_of it) (end_of it) /\ document data (begin_of it) (end_of it) it.
  Proof.
    intros Hd Hj Hp (Hs & r & Hg). destruct q as [i|k]; cbn [part request] in *.
    - destruct root as [| |l lb le|]; try discriminate. destruct (nth_error l i) as [x|] eqn:En; [|discriminate]. injection Hp as ->. change op_arrayGet with n_arrayGet in Hg.
      destruct (call_array_get jsmn to_int inner to_int_ok lay buf data b e l lb le i it [] r Hs Hg (Forall_nil _) Hd Hj En) as (out & h & E & Ho & Hr & _).
      destruct (small_end _ _ _ _ _ _ _ _ _ Hs Hg Hd) as [He _]. destruct (array_children jsmn data b e l lb le Hd Hj He) as (h' & _ & _ & Hc). destruct (Hc i it En) as (_ & _ & Hd').
      exists out. split; [exact E|]. split; [|exact Hd']. pose proof (document_range _ _ _ _ Hd') as N. split; [lia|]. split; [lia|]. eauto.
    - destruct root as [| | |ms ob oe]; try discriminate. destruct (last_member k ms) as [x|] eqn:En; [|discriminate]. injection Hp as ->. change op_objectGet with n_objectGet in Hg.
      destruct (call_object_get jsmn to_int inner to_int_ok lay buf data b e ms ob oe k [] r Hs Hg (Forall_nil _) Hd Hj) as (out & h & E & Ho & Hr & _).
      destruct (small_end _ _ _ _ _ _ _ _ _ Hs Hg Hd) as [_ Hl]. destruct (object_member jsmn inner data b e ms ob oe k Hd Hj Hl) as (h' & _ & Hc). rewrite En in *. destruct Hc as [_ Hd'].
      exists out. split; [exact E|]. split; [|exact Hd']. pose proof (document_range _ _ _ _ Hd') as N. split; [lia|]. split; [lia|]. eauto.
  Qed.
  Lemma part_cons q path root : part (q :: path) root = match part [q] root with Some x => part path x | None => None end.
  Proof. destruct q, root; cbn [part]; try reflexivity; [destruct (nth_error l i)|destruct (last_member k ms)]; reflexivity. Qed.
  Lemma part_app p1 : forall p2 root, part (p1 ++ p2) root = match part p1 root with Some x => part p2 x | None => None end.
  Proof. induction p1 as [|q p1 IH]; intros p2 root; [reflexivity|]. cbn [app]. rewrite part_cons, (part_cons q p1). destruct (part [q] root); auto. Qed.
  Lemma knows_part data b e root q x : jsmn_knows jsmn data b e root -> part [q] root = Some x -> jsmn_knows jsmn data (begin_of x) (end_of x) x.
  Proof. intros [_ H] Hp. split; [now apply (H [q])|]. intros path it Hi. apply (H (q :: path)). now rewrite part_cons, Hp. Qed.

  Lemma chain_nil data b e b2 e2 : chain run data b e [] b2 e2 -> b2 = b /\ e2 = e.
  Proof. intros H. inversion H. auto. Qed.
  (** wherever the chain stands: the range [b, e) it started with, or the range of a part *)
  Lemma chain_ok data b e path b2 e2 : chain run data b e path b2 e2 -> forall root it, document data b e root -> jsmn_knows jsmn data b e root -> part path root = Some it ->
    document data b2 e2 it /\ jsmn_knows jsmn data b2 e2 it /\ (path <> [] -> b2 = begin_of it /\ e2 = end_of it).
  Proof.
    induction 1 as [b e|b e q path lay buf out b1 e1 b2 e2 Hw Hr Ha Hc IH]; intros root it Hd Hk Hp.
    - injection Hp as <-. split; [exact Hd|]. split; [exact Hk|]. congruence.
    - rewrite part_cons in Hp. destruct (part [q] root) as [x|] eqn:Ex; [|discriminate]. destruct (step_ok _ _ _ _ _ _ _ _ Hd (proj1 Hk) Ex Hw) as (out' & E & Ha' & Hd'). rewrite Hr in E. injection E as <-.
      destruct (range_det _ _ _ _ _ Ha Ha') as [-> ->]. destruct (IH x it Hd' (knows_part _ _ _ _ _ _ Hk Ex) Hp) as (H1 & H2 & H3). split; [exact H1|]. split; [exact H2|]. intros _. destruct path as [|q' path]; [|apply H3; discriminate].
      injection Hp as <-. now apply chain_nil in Hc.
  Qed.

  (** the next request of a chain that is on its way is answered *)
  Lemma chain_next data b e p1 q p2 b1 e1 root it lay buf : chain run data b e p1 b1 e1 -> document data b e root -> jsmn_knows jsmn data b e root ->
    part (p1 ++ q :: p2) root = Some it -> written lay buf (request data q b1 e1) ->
    exists out b2 e2, run lay buf = Ret (Some out) /\ answers_range out b2 e2.
  Proof.
    intros Hc Hd Hk Hp Hw. rewrite part_app in Hp. destruct (part p1 root) as [x|] eqn:E1; [|discriminate]. rewrite part_cons in Hp. destruct (part [q] x) as [y|] eqn:E2; [|discriminate].
    destruct (chain_ok _ _ _ _ _ _ Hc _ _ Hd Hk E1) as (Hd1 & Hk1 & _). destruct (step_ok _ _ _ _ _ _ _ _ Hd1 (proj1 Hk1) E2 Hw) as (out & E & Ha & _). eauto.
  Qed.

  (** the string at the end of the path *)
  Lemma chain_string data b e path b2 e2 root cs sb se lay buf r : chain run data b e path b2 e2 -> document data b e root -> jsmn_knows jsmn data b e root ->
    path <> [] -> part path root = Some (Str cs sb se) -> ~ In NUL (firstn (Z.to_nat e2) data) ->
    (N.of_nat (length (cstr buf)) < 2^28)%N -> gval (readable lay) (cstr buf) (AArr [AStr n_parseString; AStr data; AInt b2; AInt e2]) r ->
    exists out, run lay buf = Ret (Some out) /\ one_string_text out cs.
  Proof.
    intros Hc Hd Hk Hn Hp Hz Hs Hg. destruct (chain_ok _ _ _ _ _ _ Hc _ _ Hd Hk Hp) as (Hd2 & _ & He). destruct (He Hn) as [-> ->]. cbn [begin_of end_of] in *.
    exact (call_parse_string jsmn to_int inner to_int_ok lay buf data sb se cs se [] r Hs Hg (Forall_nil _) Hd2 Hz).
  Qed.

  (** a key that is not there *)
  Lemma chain_absent data b e path b2 e2 root ms ob oe k lay buf : chain run data b e path b2 e2 -> document data b e root -> jsmn_knows jsmn data b e root ->
    part path root = Some (Obj ms ob oe) -> last_member k ms = None -> written lay buf (request data (Key k) b2 e2) ->
    exists out, run lay buf = Ret (Some out) /\ answers_range out 0 0.
  Proof.
    intros Hc Hd Hk Hp Hl (Hs & r & Hg). destruct (chain_ok _ _ _ _ _ _ Hc _ _ Hd Hk Hp) as (Hd2 & Hk2 & _). cbn [request] in Hg. change op_objectGet with n_objectGet in Hg.
    destruct (call_object_get jsmn to_int inner to_int_ok lay buf data b2 e2 ms ob oe k [] r Hs Hg (Forall_nil _) Hd2 (proj1 Hk2)) as (out & h & E & Ho & Hr & _). rewrite Hl in Hr. subst h.
    exists out. split; [exact E|]. split; [lia|]. split; [lia|]. eexists. split; [exact Ho|]. now vm_compute.
  Qed.
  (** no part has the range 0, 0 *)
  Lemma part_document data b e : forall path root it, document data b e root -> part path root = Some it -> exists b' e', document data b' e' it.
  Proof.
    intros path. revert b e. induction path as [|q path IH]; intros b e root it Hd Hp; [injection Hp as <-; eauto|].
    rewrite part_cons in Hp. destruct (part [q] root) as [x|] eqn:E; [|discriminate].
    assert (Hc : child x root) by (destruct q, root; cbn [part] in E; try discriminate; [destruct (nth_error l i) eqn:En; [|discriminate]; injection E as <-; cbn; eapply nth_error_In; eauto|
      destruct (last_member k ms) eqn:En; [|discriminate]; injection E as <-; destruct (last_member_in _ _ _ En) as (m & Hm & Ei); cbn; eauto]).
    eapply IH; [|exact Hp]. exact (proj1 (document_child _ _ _ _ _ Hd Hc)).
  Qed.
  Lemma part_range data b e path root it : document data b e root -> part path root = Some it -> (0 <= begin_of it < end_of it)%Z.
  Proof. intros Hd Hp. destruct (part_document _ _ _ _ _ _ Hd Hp) as (b' & e' & H). exact (document_range _ _ _ _ H). Qed.
End Chain.
