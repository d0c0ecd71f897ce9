(** Property C50: eni::PointerIterator. *)
From Verif Require Import Base PtrIterSpec PtrIterModel PtrIterProof.
From Coq Require Import List NArith ZArith Bool Lia.
Import ListNotations.
Local Open Scope Z_scope.

(** Any program over iterators into one block answers as the program over positions does, and the block
    ends up with the contents the positions say; other blocks do not matter.  operator= is excluded: it
    has no return statement. *)
Theorem C50_iterators :
  forall A (unspecified : piter -> piter -> bool) (m : mem A) b (l : list A) history w answers,
    m b = Some l ->
    ispec_run (mkW l [0]) history = Some (w, answers) -> existsb assigns history = false ->
    exists s, irun unspecified (mkI m [mkP b 0]) history = Ret (s, answers) /\
      imem s b = Some (items w) /\ its s = map (mkP b) (pos w).
Proof.
  intros A un m b l h w as_ Hm Hr Ha.
  destruct (irun_ok un b h (mkI m [mkP b 0]) (mkW l [0]) w as_) as (s & Hs & H1 & H2 & _); auto.
  - split; [exact Hm|]. split; [reflexivity|]. cbn. intros p [<-|[]]. lia.
  - exists s. auto.
Qed.
Print Assumptions C50_iterators.

(** The laws, for every position and offset inside the block. *)
Theorem C50_laws :
  forall A (unspecified : piter -> piter -> bool) (m : mem A) b l p n,
    m b = Some l -> 0 <= p -> p + Z.of_N n <= Z.of_nat (length l) ->
    let it := mkP b p in
    exists jt, pi_add m it n = Ret jt /\ pi_add_to m it n = Ret jt /\
      pi_diff m jt it = Ret (Z.of_N n) /\
      pi_sub m jt n = Ret it /\ pi_sub_from m jt n = Ret it /\
      pi_index m it n = pi_deref m jt /\
      pi_eq it jt = (n =? 0)%N /\ pi_ne it jt = negb (n =? 0)%N /\
      pi_lt m it jt = Ret (0 <? n)%N /\ pi_gt unspecified jt it = (0 <? n)%N /\
      pi_le unspecified it jt = true /\ pi_ge m jt it = Ret true /\
      (n <> 0%N -> exists kt, pi_inc m it = Ret kt /\ pi_dec m kt = Ret it /\ pi_post_inc m it = Ret (kt, it) /\ pi_post_dec m kt = Ret (it, kt)).
Proof.
  intros A un m b l p n Hm Hp Hn it.
  assert (Hadd : forall q d, 0 <= q + d <= Z.of_nat (length l) -> ptr_add m (mkP b q) d = Ret (mkP b (q + d))).
  { intros q d H. unfold ptr_add. cbn [blk off]. rewrite Hm. replace (_ && _) with true by lia. reflexivity. }
  assert (Hdiff : forall q q', ptr_diff m (mkP b q) (mkP b q') = Ret (q - q')).
  { intros q q'. unfold ptr_diff. cbn [blk off]. now rewrite Nat.eqb_refl, Hm. }
  exists (mkP b (p + Z.of_N n)). unfold pi_add, pi_add_to, pi_diff, pi_sub, pi_sub_from, pi_index, pi_add, pi_eq, pi_ne, pi_eq, pi_lt, pi_gt, pi_le, pi_gt, pi_ge, pi_lt, ptr_eq, ptr_gt, it.
  cbn [blk off]. rewrite Nat.eqb_refl, !Hdiff, !Hadd by lia. cbn [bind].
  replace (p + Z.of_N n + - Z.of_N n) with p by lia.
  split; [reflexivity|]. split; [reflexivity|]. split; [f_equal; lia|]. split; [reflexivity|]. split; [reflexivity|]. split; [reflexivity|].
  cbn [andb].
  assert (E1 : (p =? p + Z.of_N n) = (n =? 0)%N) by (destruct (Z.eqb_spec p (p + Z.of_N n)), (N.eqb_spec n 0); lia).
  assert (E2 : (p <? p + Z.of_N n) = (0 <? n)%N) by (destruct (Z.ltb_spec p (p + Z.of_N n)), (N.ltb_spec 0 n); lia).
  assert (E3 : (p + Z.of_N n <? p) = false) by (apply Z.ltb_ge; lia).
  split; [exact E1|]. split; [now rewrite E1|]. split; [f_equal; rewrite <- E2; apply eq_true_iff_eq; rewrite !Z.ltb_lt; lia|].
  split; [exact E2|]. split; [now rewrite E3|]. split; [f_equal; apply negb_true_iff, Z.ltb_ge; lia|].
  intros H0. exists (mkP b (p + 1)). unfold pi_inc, pi_dec, pi_post_inc, pi_post_dec, pi_copy. rewrite !Hadd by lia. cbn [bind].
  replace (p + 1 + -1) with p by lia. auto.
Qed.
Print Assumptions C50_laws.

(** Assigning iterators is undefined behaviour. *)
Theorem C50_assignment_refuted :
  forall A (unspecified : piter -> piter -> bool) (m : mem A) b (l : list A), m b = Some l ->
    ispec_run (mkW l [0]) [ICopy 0; IAssign 0 1] <> None /\
    irun unspecified (mkI m [mkP b 0]) [ICopy 0; IAssign 0 1] = UB MissingReturn.
Proof.
  intros A un m b l Hm. split; [|reflexivity].
  assert (Hv : forall ps, valid (mkW l ps) 0 = true) by (intros ps; unfold valid; cbn [items]; apply andb_true_intro; split; apply Z.leb_le; lia).
  cbn [ispec_run ispec at_ pos nth_error]. unfold fresh. rewrite Hv. cbn [pos app at_ nth_error items length]. unfold move. rewrite Hv. discriminate.
Qed.
Print Assumptions C50_assignment_refuted.

Example C50_example :
  let h := [IAdd 0 3; IPostInc 0; IIndex 0 1; ILt 2 0; IDiff 1 0; IDec 1; IStore 1 9; ISub 1 2; IGe 3 2; IEq 3 2; IIndex 3 2; IAddTo 1 2; INe 1 0]%N in
  exists w, ispec_run (mkW [5; 6; 7; 8]%N [0]) h = Some (w, [AIter 1; AIter 2; AVal 7%N; ABool true; ADiff 2; AUnit; AUnit; AIter 3; ABool true; ABool true; AVal 9%N; AUnit; ABool true])
  /\ existsb assigns h = false.
Proof. eexists. split; vm_compute; reflexivity. Qed.
