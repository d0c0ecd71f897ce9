(** Property C66: hash tables give their entries back. *)
From Verif Require Import Base HashSpec HashModel HashHeapSpec HashHeapModel HashStorageSpec HashStorageProof.
From Coq Require Import List NArith Bool Lia.
Import ListNotations.
Local Open Scope N_scope.

(** Exact account, for every history up to the first call without a meaning: the entries allocated
    and not freed are those the tables hold plus those dropped by assignments; after clear() (hence
    after the destructor, HashTable.tcc:45-51) of every table the dropped ones are left, none else. *)
Theorem C66_storage_exact :
  forall (K V : Type) (keqb : K -> K -> bool) (hash : K -> N) (dflt : V) (k0 : K),
    (forall a b, reflect (a = b) (keqb a b)) ->
    forall l, N.of_nat (length l) + N.of_nat (length l) <= 2^28 ->
      exists l1 l2 s answers w lost,
        l = l1 ++ l2 /\
        hrun keqb hash dflt k0 state0 l1 = Ret (s, answers) /\
        wloss keqb dflt world0 l1 answers w lost /\
        match l2 with [] => True | o :: _ => ~ enabled keqb dflt w o end /\
        live_entries s = owned w + lost /\
        exists s' answers',
          hrun keqb hash dflt k0 s (map WClear (seq 0 (length (tabs w)))) = Ret (s', answers') /\
          live_entries s' = lost.
Proof. intros K V keqb hash dflt k0 H. exact (storage keqb hash H dflt k0). Qed.
Print Assumptions C66_storage_exact.

(** Histories without assignment: clearing (destroying) the tables gives every entry back. *)
Theorem C66_storage_partial :
  forall (K V : Type) (keqb : K -> K -> bool) (hash : K -> N) (dflt : V) (k0 : K),
    (forall a b, reflect (a = b) (keqb a b)) ->
    forall l, N.of_nat (length l) + N.of_nat (length l) <= 2^28 -> Forall (fun o => ~ assigns o) l ->
      exists l1 l2 s answers w,
        l = l1 ++ l2 /\
        hrun keqb hash dflt k0 state0 l1 = Ret (s, answers) /\
        wexec keqb dflt world0 l1 answers w /\
        match l2 with [] => True | o :: _ => ~ enabled keqb dflt w o end /\
        live_entries s = owned w /\
        exists s' answers',
          hrun keqb hash dflt k0 s (map WClear (seq 0 (length (tabs w)))) = Ret (s', answers') /\
          live_entries s' = 0.
Proof.
  intros K V keqb hash dflt k0 H l Hl HF.
  destruct (storage keqb hash H dflt k0 l Hl) as (l1 & l2 & s & as_ & w & d & E & Hrun & HW & Hend & HC & s' & as' & Hrun' & HC').
  assert (Hd : d = 0).
  { eapply wloss_zero; eauto. rewrite E in HF. apply Forall_app in HF. apply HF. }
  rewrite Hd in *. rewrite N.add_0_r in HC.
  exists l1, l2, s, as_, w. split; auto. split; auto. split; [eapply wloss_wexec; eauto|]. split; auto. split; auto.
  exists s', as'. auto.
Qed.
Print Assumptions C66_storage_partial.

(** tables with collisions, erasures, a copy, a move and a rehash: 12 entries alive, 6 of them copies *)
Definition st_history : list (wop N N) :=
  [WNew 1] ++ map (fun k => WInsert 0 (N.of_nat k)) (seq 0 10) ++ map (fun k => WErase 0 (N.of_nat k)) (seq 3 5) ++
  [WInsert 0 4; WCopy 0; WMove 1; WRehash 0; WErase 2 8; WInsert 2 100; WClear 1].
Example C66_example :
  omap (fun r => live_entries (fst r)) (hrun N.eqb (fun k => k mod 3) 0 0 state0 st_history) = Ret 12 /\
  omap (fun r => live_entries (fst r))
    (hrun N.eqb (fun k => k mod 3) 0 0 state0 (st_history ++ map WClear (seq 0 3))) = Ret 0.
Proof. split; vm_compute; reflexivity. Qed.

(** With assignment (copy or move) over a table with entries: they are never given back. *)
Theorem C66_storage_refuted :
  exists l1 l2 : list (wop N N),
    (exists s answers, hrun N.eqb (fun k => k) 0 0 state0 (l1 ++ map WClear (seq 0 2)) = Ret (s, answers) /\
       live_entries s = 3) /\
    (exists s answers, hrun N.eqb (fun k => k) 0 0 state0 (l2 ++ map WClear (seq 0 2)) = Ret (s, answers) /\
       live_entries s = 3).
Proof.
  exists [WNew 4; WNew 4; WInsert 0 1; WInsert 0 2; WInsert 0 3; WInsert 1 7; WAssign 0 1],
         [WNew 4; WNew 4; WInsert 0 1; WInsert 0 2; WInsert 0 3; WInsert 1 7; WMoveAssign 0 1].
  split; eexists _, _; split; vm_compute; reflexivity.
Qed.
Print Assumptions C66_storage_refuted.
