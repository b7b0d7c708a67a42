(** C96: what was sent astray keeps everybody whole. *)
From Coq Require Import Permutation.
From Verif Require Import Base Types Layout Instr Math External Processor Runtime History Spec SpecReward SpecShare SpecHolder SpecSolvency SpecDust SpecStray SpecSheet
  SpecOrder SpecRun Inv Demo Order PropOrder PropOver PropSolvency PropRun PropDust PropStray PropSheet.
Local Open Scope N_scope.

(** Whatever happened since the config was created: if what it started with, the gifts, the
    lamports that arrived while no stake counted and the stray holder rewards cover the
    config's rent, what the vault authority still holds, one lamport for each advance of the
    accumulator, and what was credited early, then everybody can be paid, in any order. *)
Theorem C96_everybody_can_be_paid e cx i s au cd b sy du w0 w1 w oks okh t c l : env_ok e -> reachable e w0 ->
  step e w0 (Do cx (CInitializeConfig i s au cd b sy du)) w1 -> let ck := ic_config i in
  balance e ck oks okh w1 w t -> config_at e w ck c -> in_business e w ck -> queue e w ck l ->
  10 ^ 18 * (e_rent e CONFIG_LEN + lam (get w (e_vault e ck)) + advances (holders t)) + early (holders t) <=
    10 ^ 18 * (funds e w1 ck + (gifts t + unshared t + unowned w ck c)) + stray (holders t) ->
  forall l', Permutation l l' -> exists v, in_a_row e l' w = Ok v.
Proof.
  intros OK R ST ck B C BU Q F l' PM. pose proof (balance_reachable _ _ _ _ _ _ _ (reachable_step _ _ _ _ R ST) B) as R'.
  assert (queue e w ck l') as Q'.
  { destruct Q as [A N]. split; [intros x I; apply A; eapply Permutation_in; [symmetry; exact PM|exact I]|].
    eapply Permutation_NoDup; [apply Permutation_map; exact PM|exact N]. }
  apply (C84_queue_goes_through e ck l' w OK R' BU Q').
  pose proof (C95_enough _ _ _ _ _ _ _ _ _ _ _ _ _ _ _ _ OK R ST B C) as K. fold ck in K. pose proof (dues_claims _ _ _ _ (proj1 BU) (proj2 Q')) as D.
  unfold funds in *. set (x := early _) in *. set (y := stray _) in *. clearbody x y. clear - K D F. lia.
Qed.
Print Assumptions C96_everybody_can_be_paid.
(** And if they fall short of the rent, what the vault still holds and what was credited
    early by more than the rounding, then somebody is not paid when all who are owed
    anything ask, whatever the order. *)
Theorem C96_somebody_goes_unpaid e cx i s au cd b sy du w0 w1 w t c l : env_ok e -> reachable e w0 ->
  step e w0 (Do cx (CInitializeConfig i s au cd b sy du)) w1 -> let ck := ic_config i in
  balance e ck (in_range ck) (holder_in_range e ck) w1 w t -> config_at e w ck c ->
  (forall k d, stake_of e w ck k = Some d -> in_range ck w c d) ->
  in_business e w ck -> queue e w ck l -> SpecRun.dues e w ck l = claims e w ck ->
  10 ^ 18 * (funds e w1 ck + (gifts t + unshared t + unowned w ck c)) + stray (holders t) +
    (spread t + cfg_effective c) + 10 ^ 18 * (2 * (times t + stakers e w ck)) <
    10 ^ 18 * (e_rent e CONFIG_LEN + lam (get w (e_vault e ck))) + early (holders t) ->
  forall l', Permutation l l' -> ~ exists v, in_a_row e l' w = Ok v.
Proof.
  intros OK R ST ck B C IR BU Q E F l' PM. pose proof (balance_reachable _ _ _ _ _ _ _ (reachable_step _ _ _ _ R ST) B) as R'.
  assert (queue e w ck l') as Q'.
  { destruct Q as [A N]. split; [intros x I; apply A; eapply Permutation_in; [symmetry; exact PM|exact I]|].
    eapply Permutation_NoDup; [apply Permutation_map; exact PM|exact N]. }
  rewrite (C84_queue_goes_through e ck l' w OK R' BU Q').
  assert (SpecRun.dues e w ck l' = SpecRun.dues e w ck l) as -> by (clear - PM; induction PM; cbn [SpecRun.dues]; lia). rewrite E.
  pose proof (C95_nothing_else _ _ _ _ _ _ _ _ _ _ _ _ _ _ OK R ST B C IR) as K. fold ck in K.
  unfold funds in *. set (x := early _) in *. set (y := stray _) in *. set (z := stakers _ _ _) in *. clearbody x y z. clear - K F. lia.
Qed.
Print Assumptions C96_somebody_goes_unpaid.

(* In the example of C95 everybody can be paid. *)
Lemma ledger_queue : queue denv (ledger 12) kcfg [pay_val1; pay_sol1; pay_val2].
Proof.
  split.
  - intros x [<-|[<-|[<-|[]]]].
    + exists kval1, alice. split; [|discriminate].
      apply (ProperVal _ _ _ (cx [] 0 None 0) (HarvestValA kcfg kvhr kval1 alice) (val_of (ledger 12) kval1));
        [vm_compute; reflexivity|split; vm_compute; reflexivity|vm_compute; reflexivity..|apply ctx_ok_wf; vm_compute; reflexivity|].
      intros k [<-|[<-|[<-|[]]]]; vm_compute; reflexivity.
    + exists ksol1, bob. split; [|discriminate].
      apply (ProperSol _ _ _ (cx [] 0 (Some (View vote1 bob 1000)) 0)
        (HarvestSolA (e_view denv) kcfg kvhr ksol1 bob nat1 kval1 alice kval1 alice None)
        (sol_of (ledger 12) ksol1) (View vote1 bob 1000));
        [vm_compute; reflexivity|split; vm_compute; reflexivity|vm_compute; reflexivity..|apply ctx_ok_wf; vm_compute; reflexivity|].
      intros k [<-|[<-|[<-|[]]]]; vm_compute; reflexivity.
    + exists kval2, dave. split; [|discriminate].
      apply (ProperVal _ _ _ (cx [] 0 None 0) (HarvestValA kcfg kvhr kval2 dave) (val_of (ledger 12) kval2));
        [vm_compute; reflexivity|split; vm_compute; reflexivity|vm_compute; reflexivity..|apply ctx_ok_wf; vm_compute; reflexivity|].
      intros k [<-|[<-|[<-|[]]]]; vm_compute; reflexivity.
  - simpl map. repeat (apply List.NoDup_cons; [vm_compute; intuition discriminate|]). apply List.NoDup_nil.
Qed.
Example C96_case : let w := ledger 12 in
  (exists cx a, step denv world0 (Do cx (CInitializeConfig a slasher gov 1000 5000 100 docs)) (ledger 1) /\ ic_config a = kcfg) /\
  balance denv kcfg (in_range kcfg) (holder_in_range denv kcfg) (ledger 1) w sheet12 /\
  config_at denv w kcfg (cfg_of w kcfg) /\ in_business denv w kcfg /\ queue denv w kcfg [pay_val1; pay_sol1; pay_val2] /\
  10 ^ 18 * (e_rent denv CONFIG_LEN + lam (get w (e_vault denv kcfg)) + advances (holders sheet12)) + early (holders sheet12) <=
    10 ^ 18 * (funds denv (ledger 1) kcfg + (gifts sheet12 + unshared sheet12 + unowned w kcfg (cfg_of w kcfg))) + stray (holders sheet12) /\
  SpecRun.dues denv w kcfg [pay_val1; pay_sol1; pay_val2] = 352499 /\ claims denv w kcfg = 352499.
Proof.
  cbv zeta. split; [exact first_step|]. split; [exact sheet_steps|]. split; [split; vm_compute; reflexivity|]. split.
  { split; [|split; [|vm_compute; reflexivity]].
    - exists (cfg_of (ledger 12) kcfg). split; vm_compute; reflexivity.
    - exists match dat (get (ledger 12) kvhr) with DHolder h => h | _ => Hold 0 0 end. vm_compute. reflexivity. }
  split; [exact ledger_queue|]. split; [vm_compute; discriminate|]. split; vm_compute; reflexivity.
Qed.

(* With the jump of C84 during a deposit of 1000 tokens, a million lamports are credited early: when
   the pool's payment has been moved to the config, not everybody can be paid. *)
Definition jump_story : list act := setup ++ [jump 1000; harvest_holder (1000 * 10 ^ 18)].
Definition leap (n : nat) : world := at_end (firstn n jump_story).
Definition leap7_sheet : sheet := Sheet 0 0 0 0 2300 3 (Line 2500000 0 (1000 * (1000 * 10 ^ 18)) 0 1 3).
Definition leap_sheet : sheet := Sheet 0 0 0 0 4100 3 (Line 2500000 0 (1000 * (1000 * 10 ^ 18)) 0 1 3).
Notation leaps := (sheets_from (leap 1)).
Ltac leap_share n s a ks := eapply (sheet_shared _ (leap n) s _ _ _ (cfg_of (leap n) kcfg) ks);
  [|apply (at_end_step (firstn n jump_story) a); vm_compute; reflexivity
   |reflexivity
   |split; discriminate
   |vm_compute; reflexivity
   |split; vm_compute; reflexivity
   |first [apply List.NoDup_nil|apply List.NoDup_cons; [intros []|apply List.NoDup_nil]]
   |unfold settles_account; simpl; intuition
   |apply all_in_range_ok; vm_compute; reflexivity
   |vm_compute; reflexivity
   |vm_compute; reflexivity].
Ltac leap_quiet n a := eapply (sheet_quiet _ (leap n) blank_sheet);
  [|apply (at_end_step (firstn n jump_story) a); vm_compute; reflexivity
   |intros ? ? [= <- <-]; split; [intros []|discriminate]
   |vm_compute; reflexivity
   |vm_compute; reflexivity].
Lemma leap_steps : leaps (leap 8) leap_sheet.
Proof.
  assert (leaps (leap 4) blank_sheet) as B4.
  { assert (leaps (leap 2) blank_sheet) as B2 by (leap_quiet 1%nat (init_val vote1 alice); apply balance_start).
    assert (leaps (leap 3) blank_sheet) as B3 by (leap_quiet 2%nat (init_val vote2 dave); exact B2).
    leap_quiet 3%nat (init_sol nat1 vote1 bob 1000). exact B3. }
  assert (leaps (leap 5) (Sheet 0 0 0 0 0 1 (Line 0 0 0 0 0 1))) as B5
    by (leap_share 4%nat blank_sheet (stake_val vote1 alice atok alice 500) [kval1]; exact B4).
  assert (leaps (leap 6) (Sheet 0 0 0 0 500 2 (Line 0 0 0 0 0 2))) as B6
    by (leap_share 5%nat (Sheet 0 0 0 0 0 1 (Line 0 0 0 0 0 1)) (stake_sol nat1 bob btok bob 2000 0) [ksol1]; exact B5).
  assert (leaps (leap 7) leap7_sheet) as B7
    by (leap_share 6%nat (Sheet 0 0 0 0 500 2 (Line 0 0 0 0 0 2)) (jump 1000) [ksol1]; exact B6).
  leap_share 7%nat leap7_sheet (harvest_holder (1000 * 10 ^ 18)) (@nil N). exact B7.
Qed.
Example C96_unpaid_case : let w := leap 8 in let l := [pay_val1; pay_sol1; pay_val2] in let c := cfg_of w kcfg in
  (exists cx a, step denv world0 (Do cx (CInitializeConfig a slasher gov 1000 5000 100 docs)) (leap 1) /\ ic_config a = kcfg) /\
  leaps w leap_sheet /\ config_at denv w kcfg c /\ (forall k d, stake_of denv w kcfg k = Some d -> in_range kcfg w c d) /\
  in_business denv w kcfg /\ queue denv w kcfg l /\ SpecRun.dues denv w kcfg l = claims denv w kcfg /\
  10 ^ 18 * (funds denv (leap 1) kcfg + (gifts leap_sheet + unshared leap_sheet + unowned w kcfg c)) + stray (holders leap_sheet) +
    (spread leap_sheet + cfg_effective c) + 10 ^ 18 * (2 * (times leap_sheet + stakers denv w kcfg)) <
    10 ^ 18 * (e_rent denv CONFIG_LEN + lam (get w (e_vault denv kcfg))) + early (holders leap_sheet) /\
  claims denv w kcfg = 3500000 /\ early (holders leap_sheet) = 10 ^ 18 * 1000000.
Proof.
  cbv zeta. split; [exact first_step|]. split; [exact leap_steps|]. split; [split; vm_compute; reflexivity|].
  split; [apply all_in_range_ok; vm_compute; reflexivity|]. split.
  { split; [|split; [|vm_compute; reflexivity]].
    - exists (cfg_of (leap 8) kcfg). split; vm_compute; reflexivity.
    - exists match dat (get (leap 8) kvhr) with DHolder h => h | _ => Hold 0 0 end. vm_compute. reflexivity. }
  split; [|split; [vm_compute; reflexivity|split; [vm_compute; reflexivity|split; vm_compute; reflexivity]]]. split.
  - intros x [<-|[<-|[<-|[]]]].
    + exists kval1, alice. split; [|discriminate].
      apply (ProperVal _ _ _ (cx [] 0 None 0) (HarvestValA kcfg kvhr kval1 alice) (val_of (leap 8) kval1));
        [vm_compute; reflexivity|split; vm_compute; reflexivity|vm_compute; reflexivity..|apply ctx_ok_wf; vm_compute; reflexivity|].
      intros k [<-|[<-|[<-|[]]]]; vm_compute; reflexivity.
    + exists ksol1, bob. split; [|discriminate].
      apply (ProperSol _ _ _ (cx [] 0 (Some (View vote1 bob 1000)) 0)
        (HarvestSolA (e_view denv) kcfg kvhr ksol1 bob nat1 kval1 alice kval1 alice None)
        (sol_of (leap 8) ksol1) (View vote1 bob 1000));
        [vm_compute; reflexivity|split; vm_compute; reflexivity|vm_compute; reflexivity..|apply ctx_ok_wf; vm_compute; reflexivity|].
      intros k [<-|[<-|[<-|[]]]]; vm_compute; reflexivity.
    + exists kval2, dave. split; [|discriminate].
      apply (ProperVal _ _ _ (cx [] 0 None 0) (HarvestValA kcfg kvhr kval2 dave) (val_of (leap 8) kval2));
        [vm_compute; reflexivity|split; vm_compute; reflexivity|vm_compute; reflexivity..|apply ctx_ok_wf; vm_compute; reflexivity|].
      intros k [<-|[<-|[<-|[]]]]; vm_compute; reflexivity.
  - simpl map. repeat (apply List.NoDup_cons; [vm_compute; intuition discriminate|]). apply List.NoDup_nil.
Qed.
