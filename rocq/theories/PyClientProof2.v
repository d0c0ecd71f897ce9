(** The Python client and the JSON example. *)
From Coq Require Import String.
From Verif Require Import Base JsonSpec JsonModel JsonProof JsonProof3 JsonProof4 JsonDenotes JsonStdSpec JsonStdProof PyClientModel PyClientProof EniModel EniProof CliSpec CliModel CliProof ToolsProof
  JsonExSpec JsonExModel JsonExProof3.
From Coq Require Import List Arith NArith ZArith Bool Lia.
From Coq.Init Require Import Byte.
From Coq.Strings Require Import Byte.
Import ListNotations.
Local Open Scope nat_scope.
Local Open Scope list_scope.

Definition codes (b : bytes) : list N := map bval b.

Lemma codes_bytes b : map byte_of_N (codes b) = b.
Proof. unfold codes. rewrite map_map, <- map_id. apply map_ext. apply byte_of_N_bval. Qed.

Section Client.
  Variable jsmn : bytes -> Z -> Z -> outcome (Z * list token).
  Variable to_int : Z -> Z.
  Variable inner : bytes -> layout.
  Hypothesis to_int_ok : forall z, is_int z -> to_int z = z.

  Lemma client_parse_string repr strict lay path ops name pre s post cs :
    (N.of_nat (length path) < 2^31)%N -> is_option path = false -> (N.of_nat (length name) < 2^31)%N -> is_option name = false ->
    NoDup (map fst ops) -> In (name, json_op jsmn to_int inner) ops ->
    Forall (fun c => 0 < c < 128)%N (pre ++ 34%N :: s) -> Forall ascii post -> rchars any_code (map byte_of_N s) cs [] ->
    let doc := pre ++ (34%N :: s) ++ post in
    let input := VArr [VStr (codes n_parseString); VStr doc; VInt (Z.of_nat (length pre)); VInt (Z.of_nat (length pre + length (34%N :: s)))] in
    (N.of_nat (length (dumps repr input)) < 2^28)%N ->
    exists out, main_run strict (one_library lay path ops) (command_line repr (list_byte_of_string "eni_run") path name input) = Ret (0%Z, out) /\
      (Forall ascii cs -> forall u, loads out u <-> u = VArr [VStr cs]) /\
      (~ Forall ascii cs -> ~ loads out (VArr [VStr cs])).
  Proof.
    intros Hp Ho Hnl Hno Hd Hi Ha Hpost HC doc input Hlen. unfold command_line. set (t := dumps repr input) in *.
    assert (Adoc : Forall ascii doc).
    { subst doc. rewrite app_assoc. apply Forall_app. split; [|exact Hpost]. eapply Forall_impl; [|exact Ha]. unfold ascii. cbn. lia. }
    assert (Aname : Forall ascii (codes n_parseString)) by (vm_compute; repeat constructor).
    assert (Low : forall l, Forall ascii l -> Forall scalar l) by (intros l; apply Forall_impl; unfold ascii, scalar; lia).
    assert (Hall : all_ascii input) by (subst input; cbn; auto).
    assert (Huni : unicode input) by (subst input; cbn; auto 10).
    assert (Hsup : supported input) by (subst input; cbn; auto).
    destruct (dumps_sent repr input Huni (supported_no_reals _ Hsup)) as (_ & [_ HA] & Hgr). fold t in HA, Hgr. specialize (HA Hall).
    pose proof (proj1 ascii_all _ _ _ HA Hsup) as G. subst input. cbn [in_utf8 map] in G. rewrite !ascii_text, codes_bytes in G by assumption.
    apply (gval_nobool _ (readable lay)) in G; [|cbn; tauto].
    assert (Hc : cstr t = t) by (apply cstr_id; now apply graph_nonul).
    destruct (rchars_read _ _ _ _ HC) as (bs & GC & Hle & Heq).
    assert (Hpos : positionals [path; name; t] [path; name; t]).
    { assert (Et : exists t', t = x5b :: t') by (subst t; cbn [dumps]; eauto). destruct Et as (t' & Et).
      assert (Hdd : ~ In double_dash [path; name; t]).
      { intros [X|[X|[X|[]]]]; [rewrite X in Ho; discriminate|rewrite X in Hno; discriminate|rewrite Et in X; discriminate]. }
      pose proof (P_without _ Hdd) as HP. unfold non_options in HP. cbn [filter] in HP. rewrite Ho, Hno in HP. rewrite Et in HP |- *. exact HP. }
    assert (Hargs : forall a, In a (tl [list_byte_of_string "eni_run"; path; name; t]) -> (N.of_nat (length a) < 2^31)%N).
    { cbn [tl]. change (2^28)%N with 268435456%N in Hlen. change (2^31)%N with 2147483648%N in *. intros a [<-|[<-|[<-|[]]]]; [exact Hp|exact Hnl|lia]. }
    destruct (cli_library strict lay path ops _ _ _ t Hargs Hd Hi Hpos) as (R & _).
    set (b := Z.of_nat (length pre)) in *.
    assert (RR : c_run (json_op jsmn to_int inner) lay t = Ret (Some (strings_text [bs]))).
    { eapply (op_parse_string jsmn to_int inner to_int_ok lay t _ _ _ bs (b + 0 + 1 + len (map byte_of_N s))%Z []); [now rewrite Hc|rewrite Hc; exact G|constructor| |].
      - exists (map byte_of_N pre), (x22 :: map byte_of_N s), [], (map byte_of_N post). split; [subst doc; rewrite !map_app; reflexivity|].
        split; [unfold len; now rewrite map_length|]. split; [unfold len; cbn [length]; rewrite !map_length; cbn [length]; lia|]. split; [|constructor].
        pose proof (I_str b [] (map byte_of_N s) bs [] (Forall_nil _)) as I. rewrite app_nil_r in I. specialize (I GC). cbn [app] in I. unfold len at 1 in I. cbn [length] in I. rewrite Z.add_0_r in I. cbn in I |- *.
        replace (b + 0)%Z with b in * by lia. exact I.
      - intros X. rewrite Nat2Z.id in X. subst doc. rewrite app_assoc, map_app, firstn_app in X.
        assert (E : length pre + length (34%N :: s) = length (map byte_of_N (pre ++ 34%N :: s))) by (rewrite map_length, app_length; reflexivity).
        rewrite E, firstn_all, Nat.sub_diag in X. cbn [firstn] in X. rewrite app_nil_r in X. apply in_map_iff in X as (c & E2 & Hin). rewrite Forall_forall in Ha. specialize (Ha _ Hin). cbn in Ha.
        apply (f_equal bval) in E2. rewrite bval_low in E2 by lia. change (bval NUL) with 0%N in E2. lia. }
    exists (strings_text [bs] ++ [x0a]). split; [now apply R|]. split.
    - intros Hcs u. pose proof (rchars_ascii _ _ _ (rchars_up _ _ _ HC Hcs)) as G2. destruct (gchars_det _ _ _ GC _ _ G2) as [-> _].
      rewrite loads_one_string. split.
      + intros (cs' & -> & E & Hcs'). do 3 f_equal. apply ascii_text_inj; auto. rewrite E. now apply ascii_text.
      + intros ->. exists cs. split; [reflexivity|]. split; [reflexivity|now apply Low].
    - intros Hna L. apply loads_one_string in L as (cs' & E & EU & _). injection E as <-. apply Hna. apply (f_equal (@length byte)) in EU. symmetry in EU. apply Heq in EU.
      eapply rchars_lowb; [exact EU|]. apply Forall_app in Ha as [_ Ha]. inversion Ha as [|? ? _ Ha']; subst. apply Forall_map. eapply Forall_impl; [|exact Ha'].
      cbn. intros c Hc'. unfold lowb. rewrite bval_low; lia.
  Qed.
End Client.
