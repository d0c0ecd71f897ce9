(** Proofs for C81 and C82: the tools together with the operations. *)
From Coq Require Import String.
From Verif Require Import Base JsonSpec JsonModel JsonProof4 JsonDenotes EniModel EniProof CryptoSpec CryptoModel CryptoProof CryptoProps ScryptModel ScryptProof ScryptProof2 ScryptProof3
  CliSpec CliModel CliProof JsonOrderProof ConsensusModel ConsensusProof.
From Coq Require Import List NArith ZArith Bool Lia.
From Coq.Init Require Import Byte.
From Coq.Strings Require Import Byte.
Import ListNotations.
Import ScryptSpec.
Local Open Scope list_scope.

Lemma dec_gval n : gval documented (dec_text n) (AInt (Z.of_N n)) [].
Proof.
  pose proof (int_text_gval documented (Z.of_N n) [] ltac:(intros (? & ? & E & _); discriminate E)) as H. rewrite app_nil_r in H. unfold int_text in H.
  destruct (Z.ltb_spec (Z.of_N n) 0); [lia|]. now rewrite N2Z.id in H.
Qed.

(** ------------------------------------------------------------------ the same command line in different processes *)

Definition same_answers (lay lay' : layout) (p : bytes) (f f' : option c_function) : Prop :=
  match f, f' with Some f, Some f' => f p = f' p | None, None => True | _, _ => False end.

Lemma symbol_same lay lay' p ops name :
  (forall c, c_gas c lay p = c_gas c lay' p /\ c_run c lay p = c_run c lay' p) ->
  same_answers lay lay' p (find_symbol lay ops name) (find_symbol lay' ops name).
Proof.
  intros H. induction ops as [|[n c] ops IH]; cbn [find_symbol]; [exact I|]. destruct (H c) as [H1 H2].
  destruct (bytes_eqb name (n ++ gas_suffix)); [cbn; unfold eni_gas_fn; now rewrite H1|].
  destruct (bytes_eqb name (n ++ run_suffix)); [cbn; unfold eni_run_fn; now rewrite H2|]. exact IH.
Qed.

Lemma main_same strict lay lay' path ops argv l o p : (forall a, In a (tl argv) -> (N.of_nat (length a) < 2^31)%N) ->
  positionals (tl argv) [l; o; p] ->
  (forall c, c_gas c lay p = c_gas c lay' p /\ c_run c lay p = c_run c lay' p) ->
  main_run strict (one_library lay path ops) argv = main_run strict (one_library lay' path ops) argv.
Proof.
  intros Hs Hp H. apply in_short in Hs.
  destruct (run_status strict (one_library lay path ops) argv Hs) as [H1 _]. destruct (run_status strict (one_library lay' path ops) argv Hs) as [H2 _].
  specialize (H1 l o p Hp). specialize (H2 l o p Hp). cbn [one_library dlopen dlsym] in H1, H2. destruct (bytes_eqb l path); [|congruence].
  pose proof (symbol_same lay lay' p ops (o ++ run_suffix) H) as HS. unfold same_answers in HS.
  destruct (find_symbol lay ops (o ++ run_suffix)), (find_symbol lay' ops (o ++ run_suffix)); try contradiction; [|congruence].
  rewrite H1, H2, HS. reflexivity.
Qed.

Lemma cstr_id s : ~ In NUL s -> cstr s = s.
Proof. induction s as [|c s IH]; intros H; cbn [cstr]; auto. destruct (beqb_spec c NUL) as [->|]; [elim H; now left|]. now rewrite IH by (intros X; apply H; now right). Qed.

Lemma join_in c l : In c (join_commas l) -> c = x2c \/ exists x, In x l /\ In c x.
Proof.
  induction l as [|x l IH]; cbn [join_commas]; [intros []|]. destruct l as [|y l]; [intros H; right; exists x; cbn; auto|].
  intros H. apply in_app_or in H as [H|[H|H]]; [right; exists x; cbn; auto|left; auto|].
  destruct (IH H) as [H1|(z & H1 & H2)]; [auto|]. right. exists z. split; [now right|auto].
Qed.
Lemma params_nonul ss : Forall (fun s => ~ In NUL s) ss -> ~ In NUL (params_text ss).
Proof.
  intros H. unfold params_text. intros [E|E]; [discriminate|]. apply in_app_or in E as [E|[E|[]]]; [|discriminate].
  apply join_in in E as [E|(x & H1 & H2)]; [discriminate|]. apply in_map_iff in H1 as (s & <- & Hs). rewrite Forall_forall in H.
  destruct H2 as [E|E]; [discriminate|]. apply in_app_or in E as [E|[E|[]]]; [|discriminate]. exact (H s Hs E).
Qed.

Section Random.
  Variables rands randh : nat -> nat -> bytes -> option bytes.
  Variable file : bytes -> option bytes.
  Variable P : bytes -> Prop.
  Hypothesis rands_plain : forall i j n s, rands i j n = Some s -> P s.
  Hypothesis randh_plain : forall i j n s, randh i j n = Some s -> P s.
  Lemma random_all i args : (forall a, In a args -> exists r, a = x73 :: r \/ a = x68 :: r) -> forall j l, expand_args rands randh file i j args = Some l -> Forall P l.
  Proof.
    induction args as [|a args IH]; intros Ha j l H; cbn [expand_args] in H.
    - injection H as <-. constructor.
    - destruct (expand_arg rands randh file i j a) as [x|] eqn:Ex; [|discriminate]. cbn [optbind] in H. destruct (expand_args rands randh file i (S j) args) as [l'|] eqn:El; [|discriminate]. injection H as <-.
      constructor; [|exact (IH (fun b Hb => Ha b (or_intror Hb)) _ _ El)].
      destruct (Ha a (or_introl eq_refl)) as (r & [->| ->]); cbn in Ex; eauto.
  Qed.
End Random.

Lemma plain_calls ss lay lay' c : Forall (fun s => ~ In x22 s /\ ~ In x5c s) ss -> Forall (fun s => ~ In NUL s) ss ->
  (N.of_nat (length (params_text ss)) < 2^28)%N ->
  c_gas c lay (params_text ss) = c_gas c lay' (params_text ss) /\ c_run c lay (params_text ss) = c_run c lay' (params_text ss).
Proof.
  intros H1 H2 H3. pose proof (cstr_id _ (params_nonul ss H2)) as E.
  apply (same_calls c lay lay' _ _ (AArr (map AStr ss)) [] []); rewrite ?E; auto; apply gval_plain; exact H1.
Qed.

Lemma tests_one path (tests : list (list bytes)) : tests_of (loads [(path, tests)]) = map (fun args => (path, args)) tests.
Proof. unfold tests_of. cbn. now rewrite app_nil_r. Qed.

Lemma consensus_passes utf8 finish strict lays path ops rands randh file n (tests : list (list bytes)) :
  (1 < n)%Z -> (forall o, utf8 (stdout (finish o)) = true /\ utf8 (stderr (finish o)) = true) ->
  (forall i j k s, rands i j k = Some s \/ randh i j k = Some s -> (~ In x22 s /\ ~ In x5c s) /\ ~ In NUL s) ->
  is_option path = false -> (N.of_nat (length path) < 2^31)%N ->
  (forall m test, nth_error tests m = Some test ->
     exists op args params, test = op :: args /\ op <> [] /\ is_option op = false /\ (N.of_nat (length op) < 2^31)%N /\
       (forall a, In a args -> exists r, a = x73 :: r \/ a = x68 :: r) /\
       start_test rands randh file m test = Some (op, params) /\ (N.of_nat (length params) < 2^28)%N) ->
  exit_status utf8 (fun k argv => Some (finish (main_run strict (one_library (lays k) path ops) argv))) rands randh file n [(path, tests)] = 0%Z.
Proof.
  intros Hn Hu Hr Hp Hpl Ht. apply status_ok. split; [exact Hn|]. intros m so args H. rewrite tests_one, nth_error_map in H.
  destruct (nth_error tests m) as [test|] eqn:E; cbn in H; [|discriminate H]. injection H as <- <-.
  destruct (Ht m test E) as (op & args & params & -> & Ho & Hop & Hol & Ha & Hst & Hl).
  exists op, params. exists (finish (main_run strict (one_library (lays 0) path ops) [eni_run; path; op; params])).
  split; [exact Hst|]. split; [exact Ho|]. split; [apply Hu|]. intros j Hj. do 2 f_equal.
  cbn [start_test] in Hst. destruct (expand_args rands randh file m 0 args) as [ss|] eqn:Ee; [|discriminate]. injection Hst as <-.
  assert (H1 : Forall (fun s => ~ In x22 s /\ ~ In x5c s) ss) by (eapply (random_all rands randh file); eauto; intros; eapply Hr; eauto).
  assert (H2 : Forall (fun s => ~ In NUL s) ss) by (eapply (random_all rands randh file); eauto; intros; eapply Hr; eauto).
  apply (main_same strict _ _ path ops _ path op (params_text ss)).
  - change (2^28)%N with 268435456%N in Hl. change (2^31)%N with 2147483648%N in *. cbn [tl]. intros a [<-|[<-|[<-|[]]]]; lia.
  - cbn [tl].
    assert (Hd : ~ In double_dash [path; op; params_text ss]).
    { intros [X|[X|[X|[]]]]; [rewrite X in Hp; discriminate|rewrite X in Hop; discriminate|discriminate]. }
    pose proof (P_without [path; op; params_text ss] Hd) as HP. unfold non_options in HP. cbn [filter] in HP. rewrite Hp, Hop in HP. exact HP.
  - intros c. now apply plain_calls.
Qed.

(** ------------------------------------------------------------------ one run of each operation *)

Lemma tool_reverse strict lay path ops argv params s l r : (forall a, In a (tl argv) -> (N.of_nat (length a) < 2^31)%N) ->
  NoDup (map fst ops) -> In (list_byte_of_string "reverse", reverse_op) ops ->
  positionals (tl argv) [path; list_byte_of_string "reverse"; params] ->
  (N.of_nat (length (cstr params)) < 2^28)%N -> gval (readable lay) (cstr params) (AArr (AStr s :: l)) r ->
  (exists t, main_run strict (one_library lay path ops) argv = Ret (0%Z, t ++ [x0a]) /\ gval documented t (AArr [AStr (rev s)]) []) /\
  (exists d, main_gas false (one_library lay path ops) argv = Ret (0%Z, d ++ [x0a]) /\ gval documented d (AInt (10 * Z.of_nat (length s))) []).
Proof.
  intros Ha Hd Hi Hp Hs Hg. destruct (cli_library strict lay path ops argv _ _ params Ha Hd Hi Hp) as (H1 & _ & H3).
  destruct (reverse_result lay params s l r Hs Hg) as (Hgas & t & Ht & Hgt). split; [exists t; auto|].
  exists (dec_text (10 * N.of_nat (length s))). split.
  - apply H3; [exact Hgas|]. pose proof (gval_arr_str_le _ _ _ _ _ Hg). change (2^28)%N with 268435456%N in Hs. change (2^64)%N with 18446744073709551616%N. lia.
  - replace (10 * Z.of_nat (length s))%Z with (Z.of_N (10 * N.of_nat (length s))) by lia. apply dec_gval.
Qed.

Lemma tool_scrypt strict sha (Hsha : forall m, length (sha m) = 32%nat) a (Ha : (a + 63 < 2^64)%N) lay path ops argv name params h l r hd :
  (forall a, In a (tl argv) -> (N.of_nat (length a) < 2^31)%N) ->
  NoDup (map fst ops) -> In (name, scrypt_op sha a) ops -> positionals (tl argv) [path; name; params] ->
  (N.of_nat (length (cstr params)) < 2^28)%N -> gval (readable lay) (cstr params) (AArr (AStr h :: l)) r ->
  (accepted h -> header_bytes h hd ->
    exists t d, main_run strict (one_library lay path ops) argv = Ret (0%Z, t ++ [x0a]) /\ gval documented t (AArr [AStr d]) [] /\
                hex_text d (ScryptSpec.scrypt sha hd hd 1024 1 1 32) /\ Forall lower_hex d) /\
  (~ accepted h -> main_run strict (one_library lay path ops) argv = Ret (5%Z, [])).
Proof.
  intros Hsh Hd Hi Hp Hs Hg. destruct (cli_library strict lay path ops argv _ _ params Hsh Hd Hi Hp) as (H1 & H2 & _). split.
  - intros Hac Hh. destruct (scrypt_hash sha Hsha a Ha lay params h l r hd Hs Hg Hac Hh) as (t & d & Ht & H). exists t, d. auto.
  - intros Hn. apply H2. now apply (scrypt_valid sha Hsha a Ha lay params h l r Hs Hg).
Qed.

Lemma tool_rsa strict (o : openssl) lay lay' path ops argv enc dec params pem m l r pub c :
  (forall a, In a (tl argv) -> (N.of_nat (length a) < 2^31)%N) ->
  NoDup (map fst ops) -> In (enc, encrypt_op o) ops -> In (dec, decrypt_op o) ops -> positionals (tl argv) [path; enc; params] ->
  (N.of_nat (length (cstr params)) < 2^28)%N -> gval (readable lay) (cstr params) (AArr (AStr pem :: AStr m :: l)) r -> Forall short_keys l ->
  read_pub o (cstr pem) = Some pub -> pub_encrypt o pub m = Ret (Some c) ->
  exists t h, main_run strict (one_library lay path ops) argv = Ret (0%Z, t ++ [x0a]) /\ gval documented t (AArr [AStr h]) [] /\ hex_text h c /\
    forall argv' params' pem' l' r' priv, (forall a, In a (tl argv') -> (N.of_nat (length a) < 2^31)%N) ->
      positionals (tl argv') [path; dec; params'] ->
      (N.of_nat (length (cstr params')) < 2^28)%N -> gval (readable lay') (cstr params') (AArr (AStr pem' :: AStr h :: l')) r' -> Forall short_keys l' ->
      read_priv o (cstr pem') = Some priv -> rsa_size o priv = rsa_size o pub ->
      inverse_blocks (rsa_size o pub) (raw_pub_encrypt o pub) (raw_priv_decrypt o priv) ->
      ~ In NUL m -> (length m < rsa_size o pub)%nat ->
      exists t', main_run strict (one_library lay' path ops) argv' = Ret (0%Z, t' ++ [x0a]) /\ gval documented t' (AArr [AStr m]) [].
Proof.
  intros Ha Hd He Hde Hp Hs Hg Hk Hpub Hc. destruct (cli_library strict lay path ops argv _ _ params Ha Hd He Hp) as (H1 & _ & _).
  destruct (operations_round_trip o lay lay' params pem m l r pub c Hs Hg Hk Hpub Hc) as (t & h & Ht & Hgt & Hh & Hback).
  exists t, h. split; [auto|]. split; [auto|]. split; [auto|].
  intros argv' params' pem' l' r' priv Ha' Hp' Hs' Hg' Hk' Hpr Hsz Hinv Hm Hlen.
  destruct (cli_library strict lay' path ops argv' _ _ params' Ha' Hd Hde Hp') as (H1' & _ & _).
  destruct (Hback params' pem' l' r' priv Hs' Hg' Hk' Hpr Hsz Hinv Hm Hlen) as (t' & Ht' & Hgt'). exists t'. auto.
Qed.
