(** Histories of accepted operations. *)
From Verif Require Import Base JsonSpec JsonModel EniModel EniProof EniServe.
From Coq Require Import List NArith.
Import ListNotations.

Section Serve.
  Variable c : opclass.

  Lemma serve_ready h : forall ar s out lg st' as_,
    erun (@mkE c true true ar (JArr out) s lg) h = Ret (st', as_) -> serves c s out h as_.
  Proof.
    induction h as [|o h IH]; intros ar s out lg st' as_ H; cbn [erun] in H.
    - injection H as <- <-. constructor.
    - destruct o; cbn [estep] in H.
      + unfold get_gas, check, log in H. cbn [e_parsed e_success e_args e_ret e_op e_log] in H.
        destruct (ogas c s) eqn:E; cbn [ecatch bind] in H; try discriminate;
          destruct (erun _ h) as [[s2 as2]| | | |] eqn:Eh in H; cbn [bind] in H; try discriminate; injection H as <- <-.
        * apply SV_gas; eauto.
        * apply SV_gas_throws; eauto.
      + unfold start, check in H. cbn [e_parsed e_success e_args e_ret e_op e_log as_array] in H.
        destruct (orun c s out) as [[s1 out1] r] eqn:E. cbn [e_ret] in H.
        destruct r as [[|]| | | |]; cbn [ecatch bind] in H; try discriminate.
        * destruct (print (JArr out1)) eqn:Ep; cbn [ecatch bind] in H; try discriminate;
            destruct (erun _ h) as [[s2 as2]| | | |] eqn:Eh in H; cbn [bind] in H; try discriminate; injection H as <- <-.
          -- eapply SV_run; eauto.
          -- eapply SV_print_throws; eauto.
        * destruct (erun _ h) as [[s2 as2]| | | |] eqn:Eh in H; cbn [bind] in H; try discriminate; injection H as <- <-.
          eapply SV_run_fails; eauto.
        * destruct (erun _ h) as [[s2 as2]| | | |] eqn:Eh in H; cbn [bind] in H; try discriminate; injection H as <- <-.
          eapply SV_run_throws; eauto.
  Qed.

  Lemma serve_first lay text st args s h st' as_ :
    construct c lay text = Ret st -> e_args st = JArr args -> oparse c (oinit c) args = (s, Ret true) ->
    erun st h = Ret (st', as_) -> serves c s [] h as_.
  Proof.
    intros Hc Ha Hp Hr. unfold construct in Hc. destruct (parse lay text) as [[[|] v]| | | |]; cbn [bind] in Hc; try discriminate.
    injection Hc as <-. cbn [e_args] in Ha. rewrite Ha in Hr. unfold new_array in Hr.
    destruct h as [|o h]; [cbn in Hr; injection Hr as <- <-; constructor|].
    assert (E : estep (@mkE c false false (JArr args) (JArr []) (oinit c) []) o =
                estep (@mkE c true true (JArr args) (JArr []) s [EParse (Some true)]) o).
    { destruct o; cbn [estep]; unfold get_gas, start, check; cbn [e_parsed e_success e_args e_ret e_op e_log as_array]; rewrite Hp; reflexivity. }
    eapply (serve_ready (o :: h) (JArr args) s [] [EParse (Some true)] st'). cbn [erun] in *. rewrite <- E. exact Hr.
  Qed.
End Serve.
