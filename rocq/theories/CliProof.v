(** Lemmas about the command line tools. *)
From Verif Require Import Base JsonModel EniModel ScryptModel ScryptSpec ScryptProof CliSpec CliModel.
From Coq Require Import List NArith ZArith Bool Lia Arith.
From Coq.Init Require Import Byte.
From Coq.Strings Require Import Byte.
Import ListNotations.

(** ** Opt::parse *)

Definition short (a : bytes) : Prop := (N.of_nat (length a) < 2^31)%N.

Fixpoint pos_of (eoo : bool) (args : list bytes) : list bytes :=
  match args with
  | [] => []
  | a :: rest =>
      if eoo then a :: pos_of true rest
      else if is_option a then pos_of (bytes_eqb a double_dash) rest
      else a :: pos_of false rest
  end.

Lemma pos_true args : pos_of true args = args.
Proof. induction args as [|a args IH]; cbn [pos_of]; auto. now rewrite IH. Qed.

Lemma bytes_eqb_true a b : bytes_eqb a b = true -> a = b.
Proof. destruct (bytes_eqb_spec a b); [auto|discriminate]. Qed.

Lemma positionals_pos args pos : positionals args pos <-> pos = pos_of false args.
Proof.
  assert (H1 : forall l, ~ In double_dash l -> non_options l = pos_of false l).
  { induction l as [|a l IH]; intros H; auto. cbn [non_options filter pos_of]. fold (non_options l). cbn [In] in H.
    destruct (is_option a) eqn:E; cbn [negb].
    - destruct (bytes_eqb a double_dash) eqn:E2; [apply bytes_eqb_true in E2; subst a; tauto|]. apply IH. tauto.
    - f_equal. apply IH. tauto. }
  assert (H2 : forall l post, ~ In double_dash l -> non_options l ++ post = pos_of false (l ++ double_dash :: post)).
  { induction l as [|a l IH]; intros post H; cbn [app pos_of]; [cbn; now rewrite pos_true|]. cbn [non_options filter]. fold (non_options l). cbn [In] in H.
    destruct (is_option a) eqn:E; cbn [negb app].
    - destruct (bytes_eqb a double_dash) eqn:E2; [apply bytes_eqb_true in E2; subst a; tauto|]. apply IH. tauto.
    - f_equal. apply IH. tauto. }
  split.
  - intros [l H|pre post H]; auto.
  - intros ->. destruct (in_dec (list_eq_dec Byte.byte_eq_dec) double_dash args) as [Hi|Hn].
    + assert (Hs : exists pre post, args = pre ++ double_dash :: post /\ ~ In double_dash pre).
      { clear H1 H2. induction args as [|a args IH]; [destruct Hi|]. destruct (list_eq_dec Byte.byte_eq_dec a double_dash) as [->|Hne].
        - exists [], args. auto.
        - destruct Hi as [Hi|Hi]; [congruence|]. destruct (IH Hi) as (pre & post & -> & Hp). exists (a :: pre), post. split; auto. intros [E|E]; auto. }
      destruct Hs as (pre & post & -> & Hp). rewrite <- H2 by auto. now constructor.
    + rewrite <- H1 by auto. now constructor.
Qed.

Definition fill (l : list bytes) : opts := mkO (nth 0 l []) (nth 1 l []) (nth 2 l []).

Lemma to_int32_small z : (0 <= z < 2147483648)%Z -> to_int32 z = z.
Proof. intros H. unfold to_int32. rewrite Z.mod_small; lia. Qed.

Lemma assign_all a : short a -> assign a (to_int32 (Z.of_nat (length a))) = Ret a.
Proof.
  unfold short. intros H. change (2^31)%N with 2147483648%N in H. rewrite to_int32_small by lia. unfold assign.
  destruct (Z.ltb_spec (Z.of_nat (length a)) 0); [lia|]. rewrite Nat2Z.id, firstn_all. reflexivity.
Qed.

Lemma option_head a : beqb (nth 0 a NUL) x2d = is_option a.
Proof. destruct a as [|c a]; [reflexivity|]. destruct c; reflexivity. Qed.

Lemma dash_test a : short a -> is_option a = true ->
  ((to_int32 (Z.of_nat (length a)) =? 2)%Z && beqb (nth 1 a NUL) x2d)%bool = bytes_eqb a double_dash.
Proof.
  unfold short. intros H Ho. change (2^31)%N with 2147483648%N in H. rewrite to_int32_small by lia.
  destruct a as [|c a]; [discriminate|]. assert (c = x2d) by (destruct c; try discriminate; reflexivity). subst c.
  destruct a as [|d [|e a]]; [reflexivity| |].
  - cbn [nth length bytes_eqb double_dash]. change (Z.of_nat 2 =? 2)%Z with true. rewrite beqb_refl, andb_true_r. reflexivity.
  - destruct (Z.eqb_spec (Z.of_nat (length (x2d :: d :: e :: a))) 2) as [E|E]; [cbn [length] in E; lia|]. cbn [bytes_eqb double_dash andb]. rewrite !andb_false_r. reflexivity.
Qed.

Lemma opt_loop_eq args : Forall short args -> forall eoo got, (length got <= 3)%nat ->
  exists b o, opt_loop args eoo (Z.of_nat (length got)) (fill got) = Ret (b, o) /\
    (if Nat.eqb (length (got ++ pos_of eoo args)) 3 then b = true /\ o = fill (got ++ pos_of eoo args) else b = false).
Proof.
  induction 1 as [|a args Ha Hs IH]; intros eoo got Hg; cbn [opt_loop pos_of].
  - rewrite app_nil_r. do 2 eexists. split; [reflexivity|]. destruct (Nat.eqb_spec (length got) 3) as [E|E].
    + rewrite E. auto.
    + destruct (Z.ltb_spec (Z.of_nat (length got)) 3); [reflexivity|lia].
  - rewrite option_head. destruct eoo.
    + rewrite andb_false_r. rewrite assign_all by auto. cbn [bind].
      destruct got as [|g0 [|g1 [|g2 [|g3 got]]]]; cbn [length] in Hg; try lia; cbn [length Z.of_nat].
      * exact (IH true [a] ltac:(cbn; lia)).
      * exact (IH true [g0; a] ltac:(cbn; lia)).
      * exact (IH true [g0; g1; a] ltac:(cbn; lia)).
      * do 2 eexists. split; [reflexivity|]. reflexivity.
    + cbn [negb]. rewrite andb_true_r. destruct (is_option a) eqn:Ho.
      * rewrite dash_test by auto. destruct (bytes_eqb a double_dash); now apply IH.
      * rewrite assign_all by auto. cbn [bind].
        destruct got as [|g0 [|g1 [|g2 [|g3 got]]]]; cbn [length] in Hg; try lia; cbn [length Z.of_nat].
        -- exact (IH false [a] ltac:(cbn; lia)).
        -- exact (IH false [g0; a] ltac:(cbn; lia)).
        -- exact (IH false [g0; g1; a] ltac:(cbn; lia)).
        -- do 2 eexists. split; [reflexivity|]. reflexivity.
Qed.

Lemma opt_parse_eq argv : Forall short (tl argv) ->
  (exists l o p, positionals (tl argv) [l; o; p] /\ opt_parse argv = Ret (true, mkO l o p)) \/
  ((forall l o p, ~ positionals (tl argv) [l; o; p]) /\ exists o, opt_parse argv = Ret (false, o)).
Proof.
  intros H. destruct (opt_loop_eq _ H false [] ltac:(cbn; lia)) as (b & o & E & C). cbn [app] in C. unfold opt_parse.
  change (mkO [] [] []) with (fill []). change 0%Z with (Z.of_nat (length (@nil bytes))). rewrite E.
  destruct (Nat.eqb_spec (length (pos_of false (tl argv))) 3) as [E3|E3].
  - destruct C as [-> ->]. left. destruct (pos_of false (tl argv)) as [|l [|o' [|p [|]]]] eqn:Ep; try discriminate. exists l, o', p. split; [now apply positionals_pos|reflexivity].
  - right. subst b. split; [|eauto]. intros l o' p Hp. apply positionals_pos in Hp. rewrite <- Hp in E3. apply E3. reflexivity.
Qed.

Lemma positionals_det args p p' : positionals args p -> positionals args p' -> p = p'.
Proof. rewrite !positionals_pos. congruence. Qed.

(** ** The main functions *)

Lemma run_status strict ld argv : Forall short (tl argv) ->
  (forall l o p, positionals (tl argv) [l; o; p] ->
     match dlopen ld l with
     | None => main_run strict ld argv = Ret (3%Z, [])
     | Some h =>
         match dlsym ld h (o ++ run_suffix) with
         | None => main_run strict ld argv = Ret (4%Z, [])
         | Some f => main_run strict ld argv =
             (r <- f p ;; match r with
                          | None => Ret (5%Z, [])
                          | Some b => s <- read_cstr b ;; _ <- dealloc strict Malloc b ;; Ret (0%Z, s ++ [x0a])
                          end)
         end
     end) /\
  ((forall l o p, ~ positionals (tl argv) [l; o; p]) -> main_run strict ld argv = Ret (1%Z, [])).
Proof.
  intros Hs. unfold main_run. destruct (opt_parse_eq argv Hs) as [(l & o & p & Hp & ->)|(Hn & o & ->)]; cbn [bind negb o_lib o_op o_params].
  - split; [|intros Hn; exfalso; eapply Hn; eauto]. intros l' o' p' Hp'. pose proof (positionals_det _ _ _ Hp Hp') as E. injection E as <- <- <-.
    destruct (dlopen ld l) as [h|]; auto. destruct (dlsym ld h (o ++ run_suffix)) as [f|]; auto.
  - split; auto. intros l' o' p' Hp'. exfalso. eapply Hn; eauto.
Qed.

Lemma gas_status strict ld argv : Forall short (tl argv) ->
  (forall l o p, positionals (tl argv) [l; o; p] ->
     match dlopen ld l with
     | None => main_gas strict ld argv = Ret (3%Z, [])
     | Some h =>
         match dlsym ld h (o ++ gas_suffix) with
         | None => main_gas strict ld argv = Ret (4%Z, [])
         | Some f => main_gas strict ld argv =
             (r <- f p ;; match r with
                          | None => Ret (5%Z, [])
                          | Some b => g <- read_u64 b ;; _ <- dealloc strict New b ;; Ret (0%Z, dec_text g ++ [x0a])
                          end)
         end
     end) /\
  ((forall l o p, ~ positionals (tl argv) [l; o; p]) -> main_gas strict ld argv = Ret (2%Z, [])).
Proof.
  intros Hs. unfold main_gas. destruct (opt_parse_eq argv Hs) as [(l & o & p & Hp & ->)|(Hn & o & ->)]; cbn [bind negb o_lib o_op o_params].
  - split; [|intros Hn; exfalso; eapply Hn; eauto]. intros l' o' p' Hp'. pose proof (positionals_det _ _ _ Hp Hp') as E. injection E as <- <- <-.
    destruct (dlopen ld l) as [h|]; auto. destruct (dlsym ld h (o ++ gas_suffix)) as [f|]; auto.
  - split; auto. intros l' o' p' Hp'. exfalso. eapply Hn; eauto.
Qed.

(** pos3 decides *)
Lemma positionals3 argv : Forall short (tl argv) -> (exists l o p, positionals (tl argv) [l; o; p]) \/ (forall l o p, ~ positionals (tl argv) [l; o; p]).
Proof. intros Hs. destruct (opt_parse_eq argv Hs) as [(l & o & p & Hp & _)|(Hn & _)]; eauto. Qed.

Lemma run_zero strict ld argv out : Forall short (tl argv) ->
  (main_run strict ld argv = Ret (0%Z, out) <->
   exists l o p h f b s, positionals (tl argv) [l; o; p] /\ dlopen ld l = Some h /\ dlsym ld h (o ++ run_suffix) = Some f /\ f p = Ret (Some b) /\
     read_cstr b = Ret s /\ dealloc strict Malloc b = Ret tt /\ out = s ++ [x0a]).
Proof.
  intros Hs. destruct (run_status strict ld argv Hs) as [H1 H2]. split.
  - intros E. destruct (positionals3 argv Hs) as [(l & o & p & Hp)|Hn]; [|rewrite (H2 Hn) in E; discriminate].
    specialize (H1 l o p Hp). destruct (dlopen ld l) as [h|] eqn:El; [|congruence]. destruct (dlsym ld h (o ++ run_suffix)) as [f|] eqn:Ef; [|congruence].
    rewrite H1 in E. destruct (f p) as [[b|]| | | |] eqn:Eb; try discriminate. cbn [bind] in E. destruct (read_cstr b) as [s| | | |] eqn:Es; try discriminate. cbn [bind] in E.
    destruct (dealloc strict Malloc b) as [[]| | | |] eqn:Ed; try discriminate. cbn [bind] in E. exists l, o, p, h, f, b, s. injection E as <-. auto 10.
  - intros (l & o & p & h & f & b & s & Hp & El & Ef & Eb & Es & Ed & ->). specialize (H1 l o p Hp). rewrite El, Ef, Eb in H1. cbn [bind] in H1. rewrite Es in H1. cbn [bind] in H1. rewrite Ed in H1. exact H1.
Qed.

Lemma gas_zero strict ld argv out : Forall short (tl argv) ->
  (main_gas strict ld argv = Ret (0%Z, out) <->
   exists l o p h f b g, positionals (tl argv) [l; o; p] /\ dlopen ld l = Some h /\ dlsym ld h (o ++ gas_suffix) = Some f /\ f p = Ret (Some b) /\
     read_u64 b = Ret g /\ dealloc strict New b = Ret tt /\ out = dec_text g ++ [x0a]).
Proof.
  intros Hs. destruct (gas_status strict ld argv Hs) as [H1 H2]. split.
  - intros E. destruct (positionals3 argv Hs) as [(l & o & p & Hp)|Hn]; [|rewrite (H2 Hn) in E; discriminate].
    specialize (H1 l o p Hp). destruct (dlopen ld l) as [h|] eqn:El; [|congruence]. destruct (dlsym ld h (o ++ gas_suffix)) as [f|] eqn:Ef; [|congruence].
    rewrite H1 in E. destruct (f p) as [[b|]| | | |] eqn:Eb; try discriminate. cbn [bind] in E. destruct (read_u64 b) as [s| | | |] eqn:Es; try discriminate. cbn [bind] in E.
    destruct (dealloc strict New b) as [[]| | | |] eqn:Ed; try discriminate. cbn [bind] in E. exists l, o, p, h, f, b, s.
    assert (out = dec_text s ++ [x0a]) by congruence. auto 10.
  - intros (l & o & p & h & f & b & s & Hp & El & Ef & Eb & Es & Ed & ->). specialize (H1 l o p Hp). rewrite El, Ef, Eb in H1. cbn [bind] in H1. rewrite Es in H1. cbn [bind] in H1. rewrite Ed in H1. exact H1.
Qed.

(** ** The functions of the library *)

Lemma le_number_eq b : le_number b = le_integer b.
Proof. reflexivity. Qed.

Lemma read_gas a g : (g < 2^64)%N -> read_u64 (mkB a (le32enc (g mod 2^32) ++ le32enc (g / 2^32))) = Ret g.
Proof.
  intros H. rewrite !le32enc_eq. unfold read_u64. cbn [b_content]. rewrite app_length, !le_octets_length. cbn [Nat.add Nat.leb]. rewrite firstn_all2 by (rewrite app_length, !le_octets_length; lia).
  rewrite le_number_eq. f_equal. change (2^64)%N with (2^32 * 2^32)%N in H.
  assert (Hm : (g mod 2^32 < 256 ^ N.of_nat 4)%N) by (apply N.mod_lt; discriminate).
  assert (Hd : (g / 2^32 < 256 ^ N.of_nat 4)%N) by (apply N.div_lt_upper_bound; [discriminate|exact H]).
  assert (Ha : forall a b, le_integer (a ++ b) = (le_integer a + 256 ^ N.of_nat (length a) * le_integer b)%N).
  { clear. induction a as [|x a IH]; intros b; cbn [app le_integer length]; [change (256 ^ N.of_nat 0)%N with 1%N; lia|]. rewrite IH, Nat2N.inj_succ, N.pow_succ_r by lia. lia. }
  rewrite Ha, !le_integer_octets, le_octets_length by assumption. change (256 ^ N.of_nat 4)%N with (2^32)%N. pose proof (N.div_mod g (2^32) ltac:(discriminate)) as D.
  rewrite N.add_comm. symmetry. exact D.
Qed.

Lemma cstr_cstr t : cstr (cstr t ++ [NUL]) = cstr t.
Proof. induction t as [|c t IH]; cbn [cstr app]; auto. destruct (beqb_spec c NUL) as [->|Hn]; [reflexivity|]. cbn [app cstr]. destruct (beqb_spec c NUL); [congruence|]. now rewrite IH. Qed.

Lemma read_text a t : read_cstr (mkB a (t ++ [NUL])) = Ret (cstr (t ++ [NUL])).
Proof. unfold read_cstr. cbn [b_content]. rewrite existsb_app. cbn [existsb]. rewrite beqb_refl. cbn [orb]. now rewrite orb_true_r. Qed.

(** ** The claims in terms of the loader and the operation *)

Lemma dealloc_loose how b : dealloc false how b = Ret tt.
Proof. reflexivity. Qed.

Lemma find_own lay ops : forall n c, In (n, c) ops -> NoDup (map fst ops) ->
  (forall n1 n2, In n1 (map fst ops) -> In n2 (map fst ops) -> n1 ++ gas_suffix <> n2 ++ run_suffix) ->
  find_symbol lay ops (n ++ gas_suffix) = Some (eni_gas_fn c lay) /\ find_symbol lay ops (n ++ run_suffix) = Some (eni_run_fn c lay).
Proof.
  induction ops as [|[n' c'] ops IH]; intros n c Hi Hd Hx; [destruct Hi|]. cbn [find_symbol]. cbn [map fst] in Hd. inversion Hd as [|? ? Hn Hd']; subst. destruct Hi as [E|Hi].
  - injection E as -> ->. destruct (bytes_eqb_spec (n ++ gas_suffix) (n ++ gas_suffix)); [|congruence].
    destruct (bytes_eqb_spec (n ++ run_suffix) (n ++ gas_suffix)) as [E|]; [exfalso; apply (Hx n n); cbn; auto|].
    destruct (bytes_eqb_spec (n ++ run_suffix) (n ++ run_suffix)); [|congruence]. auto.
  - assert (Hin : In n (map fst ops)) by (apply (in_map fst) in Hi; exact Hi).
    assert (Hne : n <> n') by (intros ->; auto).
    destruct (bytes_eqb_spec (n ++ gas_suffix) (n' ++ gas_suffix)) as [E|]; [apply app_inv_tail in E; congruence|].
    destruct (bytes_eqb_spec (n ++ gas_suffix) (n' ++ run_suffix)) as [E|]; [exfalso; apply (Hx n n'); cbn; auto|].
    destruct (bytes_eqb_spec (n ++ run_suffix) (n' ++ gas_suffix)) as [E|]; [exfalso; apply (Hx n' n); cbn; auto|].
    destruct (bytes_eqb_spec (n ++ run_suffix) (n' ++ run_suffix)) as [E|]; [apply app_inv_tail in E; congruence|].
    apply IH; auto. intros m1 m2 H1 H2. apply Hx; cbn; auto.
Qed.

Lemma suffix_ne n1 n2 : n1 ++ gas_suffix <> n2 ++ run_suffix.
Proof. intros E. apply (f_equal (fun l => nth 0 (rev l) NUL)) in E. rewrite !rev_app_distr in E. discriminate E. Qed.

Lemma cstr_idem t : cstr (cstr t) = cstr t.
Proof. induction t as [|c t IH]; cbn [cstr]; auto. destruct (beqb_spec c NUL); [reflexivity|]. cbn [cstr]. destruct (beqb_spec c NUL); [congruence|]. now rewrite IH. Qed.

Lemma c_run_nonul c lay buf t : c_run c lay buf = Ret (Some t) -> cstr (t ++ [NUL]) = t.
Proof.
  unfold c_run. destruct (construct c lay (cstr buf)) as [st| | | |]; try discriminate. cbn [bind]. unfold start. destruct (check st) as [st' [[]| | | |]]; try discriminate.
  destruct (as_array (e_ret st')) as [l| | | |]; try discriminate. destruct (orun c (e_op st') l) as [[s' l'] r]. cbn [snd]. destruct r as [[]| | | |]; try discriminate. cbn [bind].
  destruct (print _) as [x| | | |]; try discriminate. cbn [bind]. intros E. injection E as <-. apply cstr_cstr.
Qed.

Lemma library_run strict lay path ops argv n c p :
  Forall short (tl argv) -> NoDup (map fst ops) -> In (n, c) ops -> positionals (tl argv) [path; n; p] ->
  main_run strict (one_library lay path ops) argv =
  (r <- c_run c lay p ;; match r with None => Ret (5%Z, []) | Some t => Ret (0%Z, t ++ [x0a]) end).
Proof.
  intros Hs Hd Hi Hp. destruct (run_status strict (one_library lay path ops) argv Hs) as [H _]. specialize (H _ _ _ Hp). cbn [one_library dlopen dlsym] in H.
  destruct (bytes_eqb_spec path path); [|congruence]. rewrite (proj2 (find_own lay ops n c Hi Hd ltac:(intros; apply suffix_ne))) in H. rewrite H. unfold eni_run_fn.
  destruct (c_run c lay p) as [[t|]| | | |] eqn:E; cbn [bind]; auto. rewrite read_text. rewrite (c_run_nonul _ _ _ _ E). cbn [bind]. destruct strict; reflexivity.
Qed.

Lemma library_gas lay path ops argv n c p g :
  Forall short (tl argv) -> NoDup (map fst ops) -> In (n, c) ops -> positionals (tl argv) [path; n; p] ->
  c_gas c lay p = Ret g -> (g < 2^64)%N ->
  main_gas false (one_library lay path ops) argv = Ret (0%Z, dec_text g ++ [x0a]) /\
  main_gas true (one_library lay path ops) argv = UB WrongDealloc.
Proof.
  intros Hs Hd Hi Hp Eg Hg. split.
  all: match goal with |- main_gas ?st _ _ = _ => destruct (gas_status st (one_library lay path ops) argv Hs) as [H _] end.
  all: specialize (H _ _ _ Hp); cbn [one_library dlopen dlsym] in H; destruct (bytes_eqb_spec path path); [|congruence].
  all: rewrite (proj1 (find_own lay ops n c Hi Hd ltac:(intros; apply suffix_ne))) in H; rewrite H; unfold eni_gas_fn; rewrite Eg; cbn [bind]; rewrite read_gas by exact Hg; reflexivity.
Qed.

Lemma in_short argv : (forall a, In a (tl argv) -> (N.of_nat (length a) < 2^31)%N) -> Forall short (tl argv).
Proof. intros H. apply Forall_forall. exact H. Qed.

Lemma cli_arguments argv : (forall a, In a (tl argv) -> (N.of_nat (length a) < 2^31)%N) ->
  (forall lib op params, opt_parse argv = Ret (true, mkO lib op params) <-> positionals (tl argv) [lib; op; params]) /\
  ((exists o, opt_parse argv = Ret (false, o)) <-> exists pos, positionals (tl argv) pos /\ length pos <> 3%nat).
Proof.
  intros Hs. apply in_short in Hs. destruct (opt_parse_eq argv Hs) as [(l & o & p & Hp & ->)|(Hn & o & ->)]; split.
  - intros l' o' p'. split; [intros E; now injection E as <- <- <-|]. intros H. pose proof (positionals_det _ _ _ Hp H) as E. now injection E as <- <- <-.
  - split; [intros [? E]; discriminate|]. intros (pos & H & Hl). pose proof (positionals_det _ _ _ Hp H) as <-. now destruct Hl.
  - intros l' o' p'. split; [discriminate|]. intros H. now apply Hn in H.
  - split; [|intros _; now exists o]. intros _. exists (pos_of false (tl argv)). split; [now apply positionals_pos|]. intros E.
    destruct (pos_of false (tl argv)) as [|a [|b [|c [|]]]] eqn:Ep; try discriminate. eapply (Hn a b c). now apply positionals_pos.
Qed.

Lemma read_cstr_iff b s : read_cstr b = Ret s <-> (exists rest, b_content b = s ++ NUL :: rest) /\ ~ In NUL s.
Proof.
  unfold read_cstr. destruct b as [a l]. cbn [b_content]. split.
  - revert s. induction l as [|c l IH]; intros s; [discriminate|]. cbn [existsb cstr]. destruct (beqb_spec c NUL) as [->|Hn].
    + intros E. injection E as <-. split; [exists l; reflexivity|intros []].
    + cbn [orb]. destruct (existsb _ l); [|discriminate]. intros E. injection E as <-. destruct (IH _ eq_refl) as [[rest Hr] Hin]. split; [exists rest; cbn [app]; now rewrite <- Hr|].
      intros [E|E]; auto.
  - intros [[rest ->] Hn]. rewrite existsb_app. cbn [existsb]. rewrite beqb_refl, orb_true_r. f_equal.
    induction s as [|c s IH]; cbn [app cstr]; [reflexivity|]. destruct (beqb_spec c NUL) as [->|]; [destruct Hn; now left|]. rewrite IH; auto. intros H. apply Hn. now right.
Qed.

Lemma dealloc_iff strict how b : dealloc strict how b = Ret tt <-> (strict = true -> b_alloc b = how).
Proof. unfold dealloc. destruct strict, how, (b_alloc b); split; auto; try discriminate; intros H; specialize (H eq_refl); discriminate. Qed.

Lemma cli_run_success strict ld argv out : (forall a, In a (tl argv) -> (N.of_nat (length a) < 2^31)%N) ->
  (main_run strict ld argv = Ret (0%Z, out) <->
   exists lib op params h f b text,
     positionals (tl argv) [lib; op; params] /\ dlopen ld lib = Some h /\ dlsym ld h (op ++ run_suffix) = Some f /\
     f params = Ret (Some b) /\ (strict = true -> b_alloc b = Malloc) /\
     (exists rest, b_content b = text ++ NUL :: rest) /\ ~ In NUL text /\
     out = text ++ [x0a]).
Proof.
  intros Hs. apply in_short in Hs. rewrite run_zero by auto. split; intros (l & o & p & h & f & b & s & H); exists l, o, p, h, f, b, s; rewrite ?dealloc_iff, ?read_cstr_iff in *; tauto.
Qed.

Lemma le_eight b0 b1 b2 b3 b4 b5 b6 b7 : le_number [b0; b1; b2; b3; b4; b5; b6; b7] =
  (bval b0 + 2^8 * bval b1 + 2^16 * bval b2 + 2^24 * bval b3 + 2^32 * bval b4 + 2^40 * bval b5 + 2^48 * bval b6 + 2^56 * bval b7)%N.
Proof.
  assert (H : forall x b, le_number (x :: b) = (bval x + 256 * le_number b)%N) by reflexivity. rewrite !H. change (le_number []) with 0%N.
  generalize (bval b0) (bval b1) (bval b2) (bval b3) (bval b4) (bval b5) (bval b6) (bval b7). intros.
  change (2^8)%N with 256%N. change (2^16)%N with 65536%N. change (2^24)%N with 16777216%N. change (2^32)%N with 4294967296%N.
  change (2^40)%N with 1099511627776%N. change (2^48)%N with 281474976710656%N. change (2^56)%N with 72057594037927936%N. lia.
Qed.
Lemma read_u64_iff b g : read_u64 b = Ret g <->
  exists b0 b1 b2 b3 b4 b5 b6 b7 rest, b_content b = [b0; b1; b2; b3; b4; b5; b6; b7] ++ rest /\
    g = (bval b0 + 2^8 * bval b1 + 2^16 * bval b2 + 2^24 * bval b3 + 2^32 * bval b4 + 2^40 * bval b5 + 2^48 * bval b6 + 2^56 * bval b7)%N.
Proof.
  unfold read_u64. split.
  - destruct b as [al [|b0 [|b1 [|b2 [|b3 [|b4 [|b5 [|b6 [|b7 rest]]]]]]]]]; cbn [b_content length Nat.leb]; try discriminate.
    cbn [firstn]. rewrite le_eight. intros E. injection E as <-. exists b0, b1, b2, b3, b4, b5, b6, b7, rest. auto.
  - intros (b0 & b1 & b2 & b3 & b4 & b5 & b6 & b7 & rest & -> & ->). cbn [length app Nat.leb firstn]. now rewrite le_eight.
Qed.

Lemma cli_gas_success ld argv out : (forall a, In a (tl argv) -> (N.of_nat (length a) < 2^31)%N) ->
  (main_gas false ld argv = Ret (0%Z, out) <->
   exists lib op params h f b g,
     positionals (tl argv) [lib; op; params] /\ dlopen ld lib = Some h /\ dlsym ld h (op ++ gas_suffix) = Some f /\
     f params = Ret (Some b) /\
     (exists b0 b1 b2 b3 b4 b5 b6 b7 rest, b_content b = [b0; b1; b2; b3; b4; b5; b6; b7] ++ rest /\
        g = (bval b0 + 2^8 * bval b1 + 2^16 * bval b2 + 2^24 * bval b3 + 2^32 * bval b4 + 2^40 * bval b5 + 2^48 * bval b6 + 2^56 * bval b7)%N) /\
     out = dec_text g ++ [x0a]).
Proof.
  intros Hs. apply in_short in Hs. rewrite gas_zero by auto. split; intros (l & o & p & h & f & b & s & H); exists l, o, p, h, f, b, s; rewrite ?dealloc_loose, <- ?read_u64_iff in *; tauto.
Qed.

Lemma cli_run_failure strict ld argv n out : (forall a, In a (tl argv) -> (N.of_nat (length a) < 2^31)%N) ->
  main_run strict ld argv = Ret (n, out) -> n <> 0%Z ->
  out = [] /\
  ((n = 1%Z /\ forall lib op params, ~ positionals (tl argv) [lib; op; params]) \/
   exists lib op params, positionals (tl argv) [lib; op; params] /\
     ((n = 3%Z /\ dlopen ld lib = None) \/
      exists h, dlopen ld lib = Some h /\
        ((n = 4%Z /\ dlsym ld h (op ++ run_suffix) = None) \/
         exists f, dlsym ld h (op ++ run_suffix) = Some f /\ n = 5%Z /\ f params = Ret None))).
Proof.
  intros Hs E Hz. apply in_short in Hs. destruct (run_status strict ld argv Hs) as [H1 H2]. destruct (positionals3 argv Hs) as [(l & o & p & Hp)|Hn].
  - specialize (H1 l o p Hp). destruct (dlopen ld l) as [h|] eqn:El.
    2:{ rewrite H1 in E. injection E as <- <-. split; auto. right. exists l, o, p. auto. }
    destruct (dlsym ld h (o ++ run_suffix)) as [f|] eqn:Ef.
    2:{ rewrite H1 in E. injection E as <- <-. split; auto. right. exists l, o, p. split; auto. right. exists h. auto. }
    rewrite H1 in E. destruct (f p) as [[b|]| | | |] eqn:Eb; try discriminate; cbn [bind] in E.
    + destruct (read_cstr b); try discriminate. cbn [bind] in E. destruct (dealloc strict Malloc b); try discriminate. cbn [bind] in E. congruence.
    + injection E as <- <-. split; auto. right. exists l, o, p. split; auto. right. exists h. split; auto. right. exists f. auto.
  - rewrite (H2 Hn) in E. injection E as <- <-. auto.
Qed.

Lemma cli_gas_failure strict ld argv n out : (forall a, In a (tl argv) -> (N.of_nat (length a) < 2^31)%N) ->
  main_gas strict ld argv = Ret (n, out) -> n <> 0%Z ->
  out = [] /\
  ((n = 2%Z /\ forall lib op params, ~ positionals (tl argv) [lib; op; params]) \/
   exists lib op params, positionals (tl argv) [lib; op; params] /\
     ((n = 3%Z /\ dlopen ld lib = None) \/
      exists h, dlopen ld lib = Some h /\
        ((n = 4%Z /\ dlsym ld h (op ++ gas_suffix) = None) \/
         exists f, dlsym ld h (op ++ gas_suffix) = Some f /\ n = 5%Z /\ f params = Ret None))).
Proof.
  intros Hs E Hz. apply in_short in Hs. destruct (gas_status strict ld argv Hs) as [H1 H2]. destruct (positionals3 argv Hs) as [(l & o & p & Hp)|Hn].
  - specialize (H1 l o p Hp). destruct (dlopen ld l) as [h|] eqn:El.
    2:{ rewrite H1 in E. injection E as <- <-. split; auto. right. exists l, o, p. auto. }
    destruct (dlsym ld h (o ++ gas_suffix)) as [f|] eqn:Ef.
    2:{ rewrite H1 in E. injection E as <- <-. split; auto. right. exists l, o, p. split; auto. right. exists h. auto. }
    rewrite H1 in E. destruct (f p) as [[b|]| | | |] eqn:Eb; try discriminate; cbn [bind] in E.
    + destruct (read_u64 b); try discriminate. cbn [bind] in E. destruct (dealloc strict New b); try discriminate. cbn [bind] in E. congruence.
    + injection E as <- <-. split; auto. right. exists l, o, p. split; auto. right. exists h. split; auto. right. exists f. auto.
  - rewrite (H2 Hn) in E. injection E as <- <-. auto.
Qed.

Lemma cli_library strict lay path ops argv name c params : (forall a, In a (tl argv) -> (N.of_nat (length a) < 2^31)%N) ->
  NoDup (map fst ops) -> In (name, c) ops -> positionals (tl argv) [path; name; params] ->
  (forall text, c_run c lay params = Ret (Some text) -> main_run strict (one_library lay path ops) argv = Ret (0%Z, text ++ [x0a])) /\
  (c_run c lay params = Ret None -> main_run strict (one_library lay path ops) argv = Ret (5%Z, [])) /\
  (forall g, c_gas c lay params = Ret g -> (g < 2^64)%N -> main_gas false (one_library lay path ops) argv = Ret (0%Z, dec_text g ++ [x0a])).
Proof.
  intros Hs Hd Hi Hp. apply in_short in Hs. pose proof (library_run strict lay path ops argv name c params Hs Hd Hi Hp) as R.
  split; [intros t E; rewrite R, E; reflexivity|]. split; [intros E; rewrite R, E; reflexivity|].
  intros g E Hg. eapply library_gas; eauto.
Qed.

Lemma cli_gas_ub lay path ops argv name c params g : (forall a, In a (tl argv) -> (N.of_nat (length a) < 2^31)%N) ->
  NoDup (map fst ops) -> In (name, c) ops -> positionals (tl argv) [path; name; params] ->
  c_gas c lay params = Ret g -> (g < 2^64)%N ->
  main_gas true (one_library lay path ops) argv = UB WrongDealloc.
Proof. intros Hs Hd Hi Hp E Hg. apply in_short in Hs. eapply library_gas; eauto. Qed.
