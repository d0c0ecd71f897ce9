(** When two layouts read the same text alike. *)
From Verif Require Import Base JsonModel JsonSpec JsonDenotes JsonLaySpec JsonProof JsonProof2 JsonProof3 JsonProof4 JsonProof5.
From Coq Require Import List NArith ZArith Bool Lia.
Import ListNotations.

Section Lits.
  Variable L : bool -> bool.
  Lemma gval_only s a r : gval L s a r -> forall b, occurs b a -> L b = true.
  Proof.
    revert s a r. apply (gval_ind2 L (fun s a r => forall b, occurs b a -> L b = true)
      (fun s l r => forall b, fold_right (fun x p => occurs b x \/ p) False l -> L b = true)
      (fun s l r => forall b, fold_right (fun m p => occurs b (snd m) \/ p) False l -> L b = true));
      intros; cbn [occurs fold_right snd] in *; try contradiction; subst; auto; intuition eauto.
  Qed.
  Lemma gval_with s a r : gval documented s a r -> (forall b, occurs b a -> L b = true) -> gval L s a r.
  Proof.
    revert s a r. apply (gval_ind2 documented (fun s a r => (forall b, occurs b a -> L b = true) -> gval L s a r)
      (fun s l r => (forall b, fold_right (fun x p => occurs b x \/ p) False l -> L b = true) -> gelems L s l r)
      (fun s l r => (forall b, fold_right (fun m p => occurs b (snd m) \/ p) False l -> L b = true) -> gmembers L s l r));
      intros; cbn [occurs fold_right snd] in *; econstructor; eauto.
  Qed.
End Lits.

Lemma same_reading l1 l2 s : (N.of_nat (length s) < 2^28)%N ->
  (parse l1 s = parse l2 s <->
   forall a r, gval documented s a r -> ((forall b, occurs b a -> readable l1 b = true) <-> (forall b, occurs b a -> readable l2 b = true))).
Proof.
  intros Hs. assert (Hd : forall L a r, gval L s a r -> gval documented s a r) by (intros L a r; apply gval_lits; auto).
  destruct (parse_ok l1 s Hs) as [(a & r & v & H1 & H2 & H3 & H4)|(H1 & H2)];
  destruct (parse_ok l2 s Hs) as [(a' & r' & v' & H1' & H2' & H3' & H4')|(H1' & H2')].
  - destruct (gval_det _ _ _ _ _ _ (Hd _ _ _ H1) (Hd _ _ _ H1')) as [<- <-]. split; [|congruence]. intros _ a0 r0 H0. destruct (gval_det _ _ _ _ _ _ (Hd _ _ _ H1) H0) as [<- <-].
    split; intros _; [exact (gval_only _ _ _ _ H1')|exact (gval_only _ _ _ _ H1)].
  - split; [congruence|]. intros H. exfalso. apply (H1' a r). apply gval_with; [eauto|]. apply (H a r); [eauto|]. exact (gval_only _ _ _ _ H1).
  - split; [congruence|]. intros H. exfalso. apply (H1 a' r'). apply gval_with; [eauto|]. apply (H a' r'); [eauto|]. exact (gval_only _ _ _ _ H1').
  - split; [|congruence]. intros _ a r H. split; intros Hr; exfalso; [apply (H1 a r)|apply (H1' a r)]; now apply gval_with.
Qed.
