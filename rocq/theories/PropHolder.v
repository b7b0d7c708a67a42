(** C79: over any history a stake account gets the holder rewards of its tokens. *)
From Coq Require Import QArith Lqa.
From Verif Require Import Base Types Layout Instr Math External Processor Runtime History Spec SpecReward SpecShare SpecHolder
  WorldLemmas Effects Handlers Evolve Sane Wf Totals Arith Nets Caps Stakers Deposits Inv Life Tokens Gov Flow
  Rewards Collect Pays Progress Demo PropState PropTokens PropAuth PropReward SpecSolvency Solvency PropShare.
Local Open Scope N_scope.

Lemma run_cleared_holder e cx c w w' ck : env_ok e -> reachable e w -> run e cx c w = Ok w' -> distributes ck c -> keeper_in c <> Some ck ->
  forall k, settles_account e cx w ck k c -> exists d', stake_of e w' ck k = Some d' /\ last_holder d' = holder_acc e w ck.
Proof.
  intros OK R RUN DI NK. pose proof (inv_reachable _ _ OK R) as I. pose proof (i_sane _ _ I) as S.
  pose proof (reach_acc_ok e w ck OK R) as A. apply run_ok in RUN as (_ & D & T & _).
  assert (forall ks, cleared e ck ks w w' -> (forall k, settles_account e cx w ck k c -> In k ks) ->
    forall k, settles_account e cx w ck k c -> exists d', stake_of e w' ck k = Some d' /\ last_holder d' = holder_acc e w ck) as G.
  { intros ks [_ CI _] IFF k K. apply IFF in K. destruct (CI k K) as (d' & S' & _ & L). eauto. }
  destruct D; cbn [distributes] in DI; try contradiction; subst ck.
  - destruct (staked_pays _ _ _ _ _ _ OK S A H T) as (TO & _). eapply G; [eapply touched_cleared; exact TO|].
    clear. unfold settles_account. simpl. intuition.
  - clear. unfold settles_account. simpl. intuition.
  - destruct (val_harvested_pays _ _ _ _ A H T) as [TO _]. eapply G; [eapply touched_cleared; exact TO|].
    clear. unfold settles_account. simpl. intuition.
  - destruct (slashed_pays _ _ _ _ _ _ OK S A H T) as [TO _]. eapply G; [eapply touched_cleared; exact TO|].
    clear. unfold settles_account. simpl. intuition.
  - destruct (staked_pays _ _ _ _ _ _ OK S A H T) as (TO & _). eapply G; [eapply touched_cleared; exact TO|].
    clear. unfold settles_account. simpl. intuition.
  - destruct (harvest_sol_collects _ _ _ _ _ OK S A H T) as (s & vw & SA & SS0 & V & _ & [((E1 & E2) & CL & _)|(NE & kp & K & SY)]).
    + eapply G; [eapply touched_cleared, touched_collected; exact CL|].
      intros k (_ & s1 & v1 & SA1 & V1 & X). rewrite V in V1. injection V1 as <-.
      assert (s1 = s) as -> by (destruct SA as [_ Q1], SA1 as [_ Q2]; congruence).
      rewrite E1, E2, !N.eqb_refl in X. simpl in X. left. auto.
    + destruct SY as [S1 S2 (ks & c1 & ND & SW & _ & IK & OK' & _)]; [simpl in NK; congruence|].
      eapply (G ks).
      * split; auto. intros x X. destruct (IK x X) as (c2 & d & _ & SD & L1 & L2). exists d. rewrite <- S1, <- S2. auto.
      * assert ((vw_effective vw =? s_lamports s) && (vw_vote vw =? vote (s_del s)) = false) as B.
        { apply andb_false_iff. destruct NE as [NE|NE]; apply N.eqb_neq in NE; auto. }
        intros k (_ & s1 & v1 & SA1 & V1 & X). apply SW. rewrite V in V1. injection V1 as <-.
        assert (s1 = s) as -> by (destruct SA as [_ Q1], SA1 as [_ Q2]; congruence). now rewrite B in X.
  - destruct (unstaked_pays _ _ _ _ _ _ OK S A H T) as (TO & _). eapply G; [eapply touched_cleared; exact TO|].
    clear. unfold settles_account. simpl. intuition.
  - destruct (slashed_pays _ _ _ _ _ _ OK S A H T) as [TO _]. eapply G; [eapply touched_cleared; exact TO|].
    clear. unfold settles_account. simpl. intuition.
  - destruct (moved_pays _ _ _ _ _ _ A H T) as [TO _]. eapply G; [eapply touched_cleared; exact TO|].
    clear. unfold settles_account. simpl. intuition.
  - destruct (overridden_pays _ _ _ _ _ _ A H T) as [TO _]. eapply G; [eapply touched_cleared; exact TO|].
    clear. unfold settles_account. simpl. intuition.
Qed.
(** Other instructions leave the tokens and the accumulator seen alone. *)
Lemma quiet_holder e cx w w' c k d : env_ok e -> sane e w -> did e cx w w' c -> syncs c = false ->
  stake_of e w (call_config c) k = Some d -> exists d', stake_of e w' (call_config c) k = Some d' /\
    last_holder d' = last_holder d /\ staked d' = staked d.
Proof.
  intros OK S D Q SO. destruct D; try discriminate; cbn [call_config] in *.
  - exists d. rewrite (stake_of_created_config _ _ _ _ _ _ _ _ _ _ _ OK S H). auto.
  - destruct (stake_of_created_val _ _ _ _ _ OK H) as ((d0 & SD & Z1 & Z2 & O) & R). exists d. rewrite R; [auto|]. intros ->. apply O. apply (stake_of_some _ _ _ _ _ SO).
  - exists d. split; [|auto]. destruct H. subst w'. revert SO. unfold stake_of, stake_in. ws.
    destruct (N.eqb_spec (sa_account a) k) as [<-|]; auto. rewrite Hc. now destruct (_ =? _).
  - exists d. split; [|auto]. destruct H. subst w'. revert SO. unfold stake_of, stake_in. ws.
    destruct (N.eqb_spec (uc_config a) k) as [<-|]; auto. rewrite Hc. now destruct (_ =? _).
  - destruct (stake_of_created_sol _ _ _ _ _ OK H) as ((d0 & SD & Z1 & Z2 & O) & R). exists d. rewrite R; [auto|]. intros ->. apply O. apply (stake_of_some _ _ _ _ _ SO).
  - destruct H. subst w'. revert SO. unfold put_del, stake_of, stake_in. ws.
    destruct (N.eqb_spec (sy_stake a) k) as [<-|]; [|intros; exists d; auto]. rewrite Hv. cbn.
    repeat (destruct (_ =? _)); intros [= <-]; eexists; (split; [reflexivity|auto]).
Qed.
Lemma holder_other_step e ck k w ev w' d : env_ok e -> reachable e w -> step e w ev w' ->
  (forall cx c, ev = Do cx c -> distributes ck c -> keeper_in c <> Some ck /\ ~ settles_account e cx w ck k c) ->
  stake_of e w ck k = Some d ->
  exists d', stake_of e w' ck k = Some d' /\ last_holder d' = last_holder d /\ staked d' = staked d.
Proof.
  intros OK R ST ND S. destruct ST as [w cx cl w' WC CL RUN|w w' RL].
  - specialize (ND cx cl eq_refl). destruct (N.eq_dec (call_config cl) ck) as [<-|NE].
    + destruct (syncs cl) eqn:Y.
      * destruct ND as [NK NS]; [now apply distributes_syncs|].
        destruct (run_cleared _ _ _ _ _ (call_config cl) OK R RUN) as [_ K]; [now apply distributes_syncs|exact NK|].
        exists d. rewrite K by assumption. auto.
      * pose proof (i_sane _ _ (inv_reachable _ _ OK R)) as SA. apply run_ok in RUN as (_ & D & _).
        apply (quiet_holder _ _ _ _ _ _ _ OK SA D Y S).
    + destruct (isolated_run _ _ _ _ _ ck OK R RUN (not_eq_sym NE)) as (SO & _). exists d. rewrite SO. auto.
  - exists d. rewrite (rely_stake_of _ _ _ RL). auto.
Qed.
Lemma holder_ledger_reachable e ck k ok w0 w f p n : reachable e w0 -> holder_ledger e ck k ok w0 w f p n -> reachable e w.
Proof. intros R. induction 1; auto; eapply reachable_step; eauto. Qed.
Lemma since_sum a b c : since b c + since a b < 2 ^ 128 -> since a c = since b c + since a b.
Proof.
  unfold since. set (M := (2 ^ 128)%Z). assert (0 < M)%Z by reflexivity. intros H0.
  pose proof (Z.mod_pos_bound (Z.of_N a - Z.of_N b) M ltac:(lia)) as B1. pose proof (Z.mod_pos_bound (Z.of_N b - Z.of_N c) M ltac:(lia)) as B2.
  apply N2Z.inj_lt in H0. rewrite N2Z.inj_add, !Z2N.id in H0 by lia. change (Z.of_N (2 ^ 128)) with M in H0.
  replace (Z.of_N a - Z.of_N c)%Z with ((Z.of_N b - Z.of_N c) + (Z.of_N a - Z.of_N b))%Z by lia.
  rewrite Zplus_mod, Z.mod_small by lia. apply Z2N.inj_add; lia.
Qed.
Lemma credit_step e ck w w' d d' : last_holder d' = last_holder d -> staked d' = staked d ->
  (holder_credit e ck w' d' <= holder_credit e ck w d + worth e ck w w' d')%Q /\
  (holder_in_range e ck w w' d' -> holder_credit e ck w' d' == holder_credit e ck w d + worth e ck w w' d')%Q.
Proof.
  intros L Q. unfold holder_credit, worth, holder_in_range, advance. rewrite L, Q.
  pose proof (since_triangle (holder_acc e w' ck) (holder_acc e w ck) (last_holder d)) as T.
  set (x := since (holder_acc e w ck) (last_holder d)) in *. set (y := since (holder_acc e w' ck) (holder_acc e w ck)) in *.
  assert (q x * q (staked d) / q (10 ^ 18) + q y * q (staked d) / q (10 ^ 18) == q (x + y) * q (staked d) / q (10 ^ 18))%Q as E.
  { rewrite q_add. field. intros Z. apply (Qlt_irrefl 0). rewrite <- Z at 2. apply q_pos. reflexivity. }
  rewrite E. split.
  - apply Qmult_le_compat_r; [|apply Qinv_le_0_compat, q_nonneg]. apply Qmult_le_compat_r; [|apply q_nonneg]. apply q_le. lia.
  - intros R. rewrite (since_sum _ _ _ R). fold x y. reflexivity.
Qed.
Lemma holder_floor e w ck d : (q (holder_claim e w ck d) <= holder_credit e ck w d)%Q /\ (holder_credit e ck w d <= q (holder_claim e w ck d) + 1)%Q.
Proof. unfold holder_claim, holder_credit. rewrite <- q_mul. apply q_floor. reflexivity. Qed.

Lemma holder_ledger_credit e ck k ok w0 w f p n d0 : env_ok e -> reachable e w0 -> stake_of e w0 ck k = Some d0 ->
  holder_ledger e ck k ok w0 w f p n -> exists d, stake_of e w ck k = Some d /\
    (q p + holder_credit e ck w d <= holder_credit e ck w0 d0 + f)%Q /\
    ((forall w w' d, ok w w' d -> holder_in_range e ck w w' d) -> holder_credit e ck w0 d0 + f <= q p + holder_credit e ck w d + q n)%Q.
Proof.
  intros OK R0 S0 LD. induction LD as [|w f p n ev w' d LD IH ST ND S O|w f p n cx c w' d d' LD IH ST NK NS S S'].
  - exists d0. split; [exact S0|]. change (q 0) with 0%Q. set (x := holder_credit _ _ _ _). clearbody x. clear. split; intros; lra.
  - destruct IH as (d1 & S1 & U & L). pose proof (holder_ledger_reachable _ _ _ _ _ _ _ _ _ R0 LD) as R.
    destruct (holder_other_step _ _ _ _ _ _ _ OK R ST ND S1) as (d' & S' & E1 & E2).
    assert (d' = d) as -> by congruence. exists d. split; [exact S|]. destruct (credit_step e ck w w' d1 d E1 E2) as [CU CE].
    split.
    + clear - U CU. lra.
    + intros IR. specialize (L IR). rewrite (CE (IR _ _ _ O)). clear - L. lra.
  - destruct IH as (d1 & S1 & U & L). pose proof (holder_ledger_reachable _ _ _ _ _ _ _ _ _ R0 LD) as R.
    assert (d1 = d) as -> by congruence. inversion ST as [? ? ? ? WC CL RUN|]; subst.
    destruct (run_cleared_holder _ _ _ _ _ _ OK R RUN (proj1 NS) NK k NS) as (d1 & S1' & E).
    assert (d1 = d') as -> by congruence. exists d'. split; [exact S'|].
    assert (holder_credit e ck w' d' = worth e ck w w' d') as -> by (unfold holder_credit, worth, advance; now rewrite E).
    pose proof (holder_floor e w ck d) as [F1 F2]. rewrite !q_add. change (q 1) with 1%Q. split.
    + clear - U F1. lra.
    + intros IR. specialize (L IR). clear - L F2. lra.
Qed.

(** What an account has been paid in holder rewards over a stretch of history, and
    would be paid now, is never more than what it was owed at the start and the worth
    of the advances made; and less only by under a lamport for each payment. *)
Theorem C79_at_most e ck k ok w0 w f p n d0 d : env_ok e -> reachable e w0 ->
  stake_of e w0 ck k = Some d0 -> holder_ledger e ck k ok w0 w f p n -> stake_of e w ck k = Some d ->
  (q (p + holder_claim e w ck d) <= holder_credit e ck w0 d0 + f)%Q.
Proof.
  intros OK R S0 LD S. destruct (holder_ledger_credit _ _ _ _ _ _ _ _ _ _ OK R S0 LD) as (d1 & S1 & U & _).
  assert (d1 = d) as -> by congruence. pose proof (holder_floor e w ck d) as [F _]. rewrite q_add. clear - U F. lra.
Qed.
Print Assumptions C79_at_most.
Theorem C79_at_least e ck k w0 w f p n d0 d : env_ok e -> reachable e w0 ->
  stake_of e w0 ck k = Some d0 -> holder_ledger e ck k (holder_in_range e ck) w0 w f p n -> stake_of e w ck k = Some d ->
  (holder_credit e ck w0 d0 + f <= q (p + holder_claim e w ck d) + q (n + 1))%Q.
Proof.
  intros OK R S0 LD S. destruct (holder_ledger_credit _ _ _ _ _ _ _ _ _ _ OK R S0 LD) as (d1 & S1 & _ & L).
  assert (d1 = d) as -> by congruence. specialize (L (fun _ _ _ H => H)). pose proof (holder_floor e w ck d) as [_ F].
  rewrite !q_add. change (q 1) with 1%Q. clear - L F. lra.
Qed.
Print Assumptions C79_at_least.
(** Over its whole life: nothing is owed to a stake account just created. *)
Theorem C79_lifetime e cx w0 c w1 ck k ok w f p n d : env_ok e -> reachable e w0 -> step e w0 (Do cx c) w1 ->
  (exists a, c = CInitializeValidatorStake a /\ ck = iv_config a /\ k = iv_stake a) \/
  (exists a, c = CInitializeSolStakerStake a /\ ck = is_config a /\ k = is_stake a) ->
  holder_ledger e ck k ok w1 w f p n -> stake_of e w ck k = Some d ->
  (q (p + holder_claim e w ck d) <= f)%Q.
Proof.
  intros OK R ST CC LD S. pose proof (reachable_step _ _ _ _ R ST) as R1. inversion ST as [? ? ? ? WC CL RUN|]; subst.
  apply run_ok in RUN as (_ & D & _).
  assert (exists d1, stake_of e w1 ck k = Some d1 /\ staked d1 = 0) as (d1 & S1 & E1).
  { destruct CC as [(a & -> & -> & ->)|(a & -> & -> & ->)]; inversion D; subst.
    - destruct (stake_of_created_val _ _ _ _ _ OK ltac:(eassumption)) as ((d0 & SD & Z1 & Z2 & O) & _). eauto.
    - destruct (stake_of_created_sol _ _ _ _ _ OK ltac:(eassumption)) as ((d0 & SD & Z1 & Z2 & O) & _). eauto. }
  pose proof (C79_at_most _ _ _ _ _ _ _ _ _ _ _ OK R1 S1 LD S) as B.
  assert (holder_credit e ck w1 d1 == 0)%Q as Z by (unfold holder_credit; rewrite E1; change (q 0) with 0%Q; unfold Qdiv; now rewrite Qmult_0_r, Qmult_0_l).
  now rewrite Z, Qplus_0_l in B.
Qed.
Print Assumptions C79_lifetime.
(* Bob's 2000 tokens: after an advance of 5.0003 lamports per token the harvest pays 10000 of 10000.6; after
   another of 2.2002, 4400 of 4400.4 are owed. *)
Definition holder_story : list act := setup ++
  [ harvest_holder (50003 * 10 ^ 14); harvest_sol nat1 bob vote1 alice vote1 alice None (View vote1 bob 1000);
    harvest_holder (72005 * 10 ^ 14) ].
Example C79_case : let w0 := at_end setup in let w := at_end holder_story in
  reachable denv w0 /\ stake_of denv w0 kcfg ksol1 = Some (cdel w0) /\
  (exists f, holder_ledger denv kcfg ksol1 (holder_in_range denv kcfg) w0 w f 10000 1 /\ (f == q 144010 / q 10)%Q) /\
  stake_of denv w kcfg ksol1 = Some (cdel w) /\ (holder_credit denv kcfg w0 (cdel w0) == 0)%Q /\
  holder_claim denv w kcfg (cdel w) = 4400.
Proof.
  cbv zeta. set (w0 := at_end setup). set (w1 := at_end (firstn 7 holder_story)).
  set (w2 := at_end (firstn 8 holder_story)). set (w3 := at_end holder_story).
  split; [apply at_end_reachable; vm_compute; reflexivity|]. split; [vm_compute; reflexivity|].
  split; [|split; [vm_compute; reflexivity|split; vm_compute; reflexivity]].
  eexists. split.
  - eapply (holder_other _ _ _ _ _ w2 _ _ _ _ w3 (cdel w3)).
    + change 10000 with (0 + 10000). replace 10000 with (holder_claim denv w1 kcfg (cdel w1)) by (vm_compute; reflexivity).
      change 1 with (0 + 1). eapply (holder_settle _ _ _ _ _ w1 _ _ _ _ _ w2 (cdel w1) (cdel w2)).
      * eapply (holder_other _ _ _ _ _ w0 _ _ _ _ w1 (cdel w1)); [apply holder_start| | | |].
        -- apply (at_end_step setup (harvest_holder (50003 * 10 ^ 14))). vm_compute. reflexivity.
        -- intros cx c E. cbn in E. injection E as <- <-. intros _. split; [discriminate|]. intros [_ []].
        -- vm_compute. reflexivity.
        -- vm_compute. reflexivity.
      * apply (at_end_step (firstn 7 holder_story) (harvest_sol nat1 bob vote1 alice vote1 alice None (View vote1 bob 1000))). vm_compute. reflexivity.
      * discriminate.
      * split; [reflexivity|]. exists (sol_of w1 ksol1), (View vote1 bob 1000). split; [split; vm_compute; reflexivity|].
        split; [reflexivity|]. vm_compute. reflexivity.
      * vm_compute. reflexivity.
      * vm_compute. reflexivity.
    + apply (at_end_step (firstn 8 holder_story) (harvest_holder (72005 * 10 ^ 14))). vm_compute. reflexivity.
    + intros cx c E. cbn in E. injection E as <- <-. intros _. split; [discriminate|]. intros [_ []].
    + vm_compute. reflexivity.
    + vm_compute. reflexivity.
  - vm_compute. reflexivity.
Qed.
(* From its creation: Bob stakes 2000 tokens, and the first advance makes 10000.6 lamports. *)
Example C79_lifetime_case : let w1 := at_end (firstn 4 setup) in let w := at_end (firstn 7 holder_story) in
  reachable denv (at_end (firstn 3 setup)) /\
  (exists cx a, step denv (at_end (firstn 3 setup)) (Do cx (CInitializeSolStakerStake a)) w1 /\ is_config a = kcfg /\ is_stake a = ksol1) /\
  (exists f n, holder_ledger denv kcfg ksol1 (holder_in_range denv kcfg) w1 w f 0 n /\ (f == q 100006 / q 10)%Q) /\
  stake_of denv w kcfg ksol1 = Some (cdel w) /\ holder_claim denv w kcfg (cdel w) = 10000.
Proof.
  cbv zeta. set (w1 := at_end (firstn 4 setup)). set (w2 := at_end (firstn 5 setup)). set (w3 := at_end setup).
  set (w4 := at_end (firstn 7 holder_story)).
  split; [apply at_end_reachable; vm_compute; reflexivity|].
  split; [|split; [|split; vm_compute; reflexivity]].
  - do 2 eexists. split; [|split].
    + apply (at_end_step (firstn 3 setup) (init_sol nat1 vote1 bob 1000)). vm_compute. reflexivity.
    + reflexivity.
    + reflexivity.
  - do 2 eexists. split.
    + eapply (holder_other _ _ _ _ _ w3 _ _ _ _ w4 (cdel w4)).
      * replace 0 with (0 + holder_claim denv w2 kcfg (cdel w2)) by (vm_compute; reflexivity).
        eapply (holder_settle _ _ _ _ _ w2 _ _ _ _ _ w3 (cdel w2) (cdel w3)).
        -- eapply (holder_other _ _ _ _ _ w1 _ _ _ _ w2 (cdel w2)); [apply holder_start| | | |].
           ++ apply (at_end_step (firstn 4 setup) (stake_val vote1 alice atok alice 500)). vm_compute. reflexivity.
           ++ intros cx c E. cbn in E. injection E as <- <-. intros _. split; [discriminate|]. intros [_ E]. revert E. vm_compute. discriminate.
           ++ vm_compute. reflexivity.
           ++ vm_compute. reflexivity.
        -- apply (at_end_step (firstn 5 setup) (stake_sol nat1 bob btok bob 2000 0)). vm_compute. reflexivity.
        -- discriminate.
        -- split; reflexivity.
        -- vm_compute. reflexivity.
        -- vm_compute. reflexivity.
      * apply (at_end_step setup (harvest_holder (50003 * 10 ^ 14))). vm_compute. reflexivity.
      * intros cx c E. cbn in E. injection E as <- <-. intros _. split; [discriminate|]. intros [_ []].
      * vm_compute. reflexivity.
      * vm_compute. reflexivity.
    + vm_compute. reflexivity.
Qed.
