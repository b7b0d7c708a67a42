(** C82: harvests of different stake accounts of one config can be executed in any
    order. *)
From Coq Require Import Permutation.
From Verif Require Import Base Types Layout Instr Math External Processor Runtime History Spec
  WorldLemmas Effects Handlers Wf Inv Progress SpecLocal Local SpecOrder Order Demo PropAuth.

(** Two harvests that succeed one after the other succeed the other way round and
    leave the same accounts behind, although both write the config account. *)
Theorem C82_swap e w ck x s1 a1 y s2 a2 w' : env_ok e -> reachable e w ->
  only_pays w ck x s1 a1 -> only_pays w ck y s2 a2 -> s1 <> s2 ->
  in_a_row e [x; y] w = Ok w' -> exists v, in_a_row e [y; x] w = Ok v /\ same_world w' v.
Proof.
  intros OK R PX PY N H. pose proof (i_wf _ _ (inv_reachable _ _ OK R)) as W.
  destruct x as [cx c], y as [cy b]. cbn [in_a_row] in *.
  apply bind_ok in H as (w1 & R1 & H). apply bind_ok in H as (w2 & R2 & H). injection H as <-.
  destruct (swap_run e w ck (cx, c) s1 a1 (cy, b) s2 a2 w1 w2 W N PX PY R1 R2) as (v1 & v2 & V1 & V2 & S).
  exists v2. cbn [fst snd] in *. rewrite V1, bind_Ok, V2, bind_Ok. auto.
Qed.
Print Assumptions C82_swap.

Lemma harvested_stake_is w ck x sk auth : only_pays w ck x sk auth -> harvested_stake x = sk.
Proof. now intros []. Qed.
Lemma paying_perm w ck l l' : Permutation l l' -> paying w ck l -> paying w ck l'.
Proof.
  intros P [A B]. split.
  - intros x I. apply A. eapply Permutation_in; [symmetry; exact P|exact I].
  - eapply Permutation_NoDup; [apply Permutation_map; exact P|exact B].
Qed.
Lemma paying_next e w ck x l w1 : paying w ck (x :: l) -> run e (fst x) (snd x) w = Ok w1 -> paying w1 ck l.
Proof.
  intros [A B] R. simpl in B. apply List.NoDup_cons_iff in B as [_ B]. split; [|exact B].
  intros y I. destruct (A y (or_intror I)) as (sk & au & P). exists sk, au.
  destruct (A x (or_introl eq_refl)) as (s1 & a1 & PX).
  destruct (run_pays _ _ _ _ _ _ _ PX R) as (c & d & h & rpt & sr & hr & Q).
  eapply pays_moved; eauto.
Qed.
Lemma row_any_order e ck l l' : Permutation l l' -> forall w w', wf_world w -> paying w ck l ->
  in_a_row e l w = Ok w' -> exists v, in_a_row e l' w = Ok v /\ same_world w' v.
Proof.
  induction 1 as [|x l l' P IH|x y l|l l' l'' P1 IH1 P2 IH2]; intros w w' W PA H.
  - exists w'. split; [exact H|intros k; reflexivity].
  - destruct x as [cx c]. cbn [in_a_row] in *. apply bind_ok in H as (w1 & R1 & H). rewrite R1, bind_Ok.
    destruct (proj1 PA (cx, c) (or_introl eq_refl)) as (sk & au & PX).
    apply (IH w1); [eapply (wf_paid e w ck (cx, c)); eauto|eapply (paying_next e w ck (cx, c)); eauto|exact H].
  - destruct (proj1 PA x) as (sx & ax & PX); [simpl; auto|]. destruct (proj1 PA y) as (sy & ay & PY); [simpl; auto|].
    assert (sy <> sx) as N.
    { pose proof (proj2 PA) as B. simpl in B. apply List.NoDup_cons_iff in B as [B _]. intros E. apply B. left.
      now rewrite (harvested_stake_is _ _ _ _ _ PX), (harvested_stake_is _ _ _ _ _ PY). }
    destruct x as [cx c], y as [cy b]. cbn [in_a_row] in *.
    apply bind_ok in H as (w1 & R1 & H). apply bind_ok in H as (w2 & R2 & H).
    destruct (swap_run e w ck (cy, b) sy ay (cx, c) sx ax w1 w2 W N PY PX R1 R2) as (v1 & v2 & V1 & V2 & S).
    cbn [fst snd] in *. rewrite V1, bind_Ok, V2, bind_Ok. pose proof (same_row e l w2 v2 S) as SR. rewrite H in SR.
    destruct (in_a_row e l v2) as [v| |]; simpl in SR; try contradiction. exists v. auto.
  - destruct (IH1 _ _ W PA H) as (v & H1 & S1). destruct (IH2 w v W (paying_perm _ _ _ _ P1 PA) H1) as (v' & H2 & S2).
    exists v'. split; [exact H2|eapply same_trans; eauto].
Qed.

(** Any number of harvests: if they succeed in one order they succeed in every
    order, and every account ends up the same. *)
Theorem C82_any_order e ck l l' w w' : env_ok e -> reachable e w -> paying w ck l -> Permutation l l' ->
  in_a_row e l w = Ok w' -> exists v, in_a_row e l' w = Ok v /\ same_world w' v.
Proof.
  intros OK R PA P H. apply (row_any_order e ck l l' P w w' (i_wf _ _ (inv_reachable _ _ OK R)) PA H).
Qed.
Print Assumptions C82_any_order.

(** Whether the row goes through, and what everybody holds afterwards, is the same
    in all orders. *)
Theorem C82_all_or_none e ck l l' w : env_ok e -> reachable e w -> paying w ck l -> Permutation l l' ->
  (exists w', in_a_row e l w = Ok w') <-> (exists w', in_a_row e l' w = Ok w').
Proof.
  intros OK R PA P. split; intros [w' H].
  - destruct (C82_any_order e ck l l' w w' OK R PA P H) as (v & V & _). eauto.
  - destruct (C82_any_order e ck l' l w w' OK R) as (v & V & _); eauto using paying_perm. now symmetry.
Qed.
Print Assumptions C82_all_or_none.

(* A million lamports arrived; both validators and a staker are harvested. *)
Definition pay_val1 : ctx * call := (cx [] 0 None 0, CHarvestValidatorRewards (HarvestValA kcfg kvhr kval1 alice)).
Definition pay_val2 : ctx * call := (cx [] 0 None 0, CHarvestValidatorRewards (HarvestValA kcfg kvhr kval2 dave)).
Definition pay_sol1 : ctx * call :=
  (cx [] 0 (Some (View vote1 bob 1000)) 0,
   CHarvestSolStakerRewards (HarvestSolA (e_view denv) kcfg kvhr ksol1 bob nat1 kval1 alice kval1 alice None)).
Example C82_case : let w := at_end (firstn 7 story) in
  reachable denv w /\ paying w kcfg [pay_val1; pay_sol1; pay_val2] /\
  match in_a_row denv [pay_val1; pay_sol1; pay_val2] w, in_a_row denv [pay_val2; pay_sol1; pay_val1] w with
  | Ok w1, Ok w2 =>
      (lam (get w1 alice) - lam (get w alice), lam (get w1 bob) - lam (get w bob)) = (277777, 722222) /\
      (lam (get w2 alice) - lam (get w alice), lam (get w2 bob) - lam (get w bob)) = (277777, 722222)
  | _, _ => False
  end.
Proof.
  split; [apply at_end_reachable; vm_compute; reflexivity|].
  split.
  { split.
    - intros x [<-|[<-|[<-|[]]]].
      + exists kval1, alice. apply (PaysValidator _ _ (cx [] 0 None 0) (HarvestValA kcfg kvhr kval1 alice)); vm_compute; reflexivity.
      + exists ksol1, bob. eapply (PaysStaker _ _ _ (HarvestSolA (e_view denv) kcfg kvhr ksol1 bob nat1 kval1 alice kval1 alice None)
          (sol_of (at_end (firstn 7 story)) ksol1) (View vote1 bob 1000)); vm_compute; reflexivity.
      + exists kval2, dave. apply (PaysValidator _ _ (cx [] 0 None 0) (HarvestValA kcfg kvhr kval2 dave)); vm_compute; reflexivity.
    - simpl map. repeat (apply List.NoDup_cons; [vm_compute; intuition discriminate|]). apply List.NoDup_nil. }
  vm_compute. split; reflexivity.
Qed.
