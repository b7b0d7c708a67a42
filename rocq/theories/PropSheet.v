(** C95: the balance sheet of a config. *)
From Verif Require Import Base Types Layout Instr Math External Processor Runtime History Spec SpecReward SpecShare SpecHolder SpecSolvency SpecDust SpecStray SpecSheet
  WorldLemmas Effects Handlers Evolve Sane Wf Totals Arith Nets Caps Stakers Deposits Inv Life Tokens Gov Flow
  Rewards Collect Pays Progress Live Demo PropState PropTokens PropAuth PropReward Solvency PropShare PropHolder PropSolvency PropDust PropStray.
Local Open Scope N_scope.

Lemma sum_over_0 f ks : (forall k, In k ks -> f k = 0) -> sum_over f ks = 0.
Proof. induction ks as [|k ks IH]; intros H; cbn [sum_over]; [auto|]. rewrite H by now left. rewrite IH; [lia|]. intros; apply H; now right. Qed.
Lemma sum_over_plus f g ks : sum_over (fun k => f k + g k) ks = sum_over f ks + sum_over g ks.
Proof. induction ks as [|k ks IH]; cbn [sum_over]; [auto|]. rewrite IH. lia. Qed.
Lemma sum_over_perm f ks ks' : Permutation ks ks' -> sum_over f ks = sum_over f ks'.
Proof. induction 1; cbn [sum_over]; lia. Qed.
Lemma no_share e ck w x ks : (forall k d, stake_of e w ck k = Some d -> authority d <> x) -> sum_over (share e w ck x) ks = 0.
Proof.
  intros H. apply sum_over_0. intros k _. unfold share. destruct (stake_of e w ck k) as [d|] eqn:S; [|auto].
  now rewrite (proj2 (N.eqb_neq _ _) (H k d S)).
Qed.
Lemma moves_funds_exact e ck ks pool r w w' : moves e ck ks pool r w w' -> payees_apart e ck w -> ck <> e_vault e ck ->
  (pool <> ck /\ pool <> e_vault e ck \/ r = 0) ->
  funds e w ck + r = funds e w' ck + sum_over (pending e w ck) ks.
Proof.
  intros M PA NV P. pose proof (M ck) as M1. pose proof (M (e_vault e ck)) as M2. unfold funds.
  rewrite (no_share e ck w ck ks) in M1 by (intros k d S; apply (PA k d S)).
  rewrite (no_share e ck w (e_vault e ck) ks) in M2 by (intros k d S; apply (PA k d S)).
  rewrite N.eqb_refl in M1, M2. rewrite (proj2 (N.eqb_neq _ _) NV) in M1. rewrite (proj2 (N.eqb_neq _ _) (not_eq_sym NV)) in M2.
  destruct P as [[P1 P2]| ->].
  - rewrite (proj2 (N.eqb_neq _ _) (not_eq_sym P1)) in M1. rewrite (proj2 (N.eqb_neq _ _) (not_eq_sym P2)) in M2. lia.
  - destruct (ck =? pool), (e_vault e ck =? pool); lia.
Qed.
(** What a distributing instruction does to the lamports of the config and its vault. *)
Lemma run_funds e cx c w w' ck cf : env_ok e -> reachable e w -> run e cx c w = Ok w' -> distributes ck c ->
  keeper_apart e ck c -> payees_apart e ck w -> config_at e w ck cf ->
  exists ks, NoDup ks /\ (forall k, In k ks <-> settles_account e cx w ck k c) /\
    funds e w ck + pool_paid e ck w w' = funds e w' ck + sum_over (pending e w ck) ks.
Proof.
  intros OK R RUN DI [NK NKV] PA C. pose proof (inv_reachable _ _ OK R) as I. pose proof (i_sane _ _ I) as S.
  pose proof (reach_acc_ok e w ck OK R) as A. pose proof RUN as RUN0. apply run_ok in RUN as (_ & D & T & _).
  assert (ck <> e_vault e ck) as NV by (intros E; exact (config_not_vault _ _ _ _ ck S C (eq_sym E))).
  assert (forall k, own (get w k) = e_rewards e -> k <> ck) as NP by (intros k P; eapply config_not_pool; eauto).
  assert (call_config c = ck) as CC by (destruct c; simpl in DI |- *; tauto).
  pose proof (fun HC => holder_acc_hframe e w w' ck (hframe_did _ _ _ _ _ OK S D HC)) as HF. clear CC.
  assert (forall ks, (forall k, In k ks <-> settles_account e cx w ck k c) -> cleared e ck ks w w' ->
    funds e w ck + pool_paid e ck w w' = funds e w' ck + sum_over (pending e w ck) ks ->
    exists ks, NoDup ks /\ (forall k, In k ks <-> settles_account e cx w ck k c) /\
      funds e w ck + pool_paid e ck w w' = funds e w' ck + sum_over (pending e w ck) ks) as G.
  { intros ks IFF [ND _ _] F. exists ks. auto. }
  destruct D; cbn [distributes] in DI; try contradiction; subst ck; cbn [keeper_in] in *.
  - destruct (staked_pays _ _ _ _ _ _ OK S A H T) as (TO & P1 & M & HA). eapply G; [|eapply touched_cleared; exact TO|].
    + clear. unfold settles_account. simpl. intuition.
    + eapply moves_funds_exact; eauto. left. split; [|auto]. apply NP. destruct H as [? ? ? ? ? []]. destruct H5.
      rewrite <- Hpo. symmetry. transitivity (own (get w3 (st_pool a))); [destruct H4; auto|].
      transitivity (own (get w2 (st_pool a))); [destruct H3; auto|]. rewrite H2. ws.
      exact (ev_own _ _ _ (evolves_harvest _ _ _ _ _ _ _ _ _ H1) _).
  - destruct (C26_holder_harvest _ _ _ _ _ OK R RUN0) as (c1 & c1' & paid & _ & _ & PP & P1 & P2 & _ & HA & PE & LV & LC & _).
    eapply (G []).
    + clear. unfold settles_account. simpl. intuition.
    + split; [constructor|intros x []|]. intros x _. eapply held_stakes; eauto.
    + unfold funds, pool_paid. cbn [sum_over]. rewrite <- PE. lia.
  - destruct (val_harvested_pays _ _ _ _ A H T) as [TO M]. eapply G; [|eapply touched_cleared; exact TO|].
    + clear. unfold settles_account. simpl. intuition.
    + rewrite (paid_nothing _ _ _ _ (HF eq_refl)). eapply moves_funds_exact; eauto.
  - destruct (slashed_pays _ _ _ _ _ _ OK S A H T) as [TO M]. eapply G; [|eapply touched_cleared; exact TO|].
    + clear. unfold settles_account. simpl. intuition.
    + rewrite (paid_nothing _ _ _ _ (HF eq_refl)). eapply moves_funds_exact; eauto.
  - destruct (staked_pays _ _ _ _ _ _ OK S A H T) as (TO & P1 & M & HA). eapply G; [|eapply touched_cleared; exact TO|].
    + clear. unfold settles_account. simpl. intuition.
    + eapply moves_funds_exact; eauto. left. split; [|auto]. apply NP. destruct H as [? ? ? ? ? []]. destruct H5.
      rewrite <- Hpo. symmetry. transitivity (own (get w3 (st_pool a))); [destruct H4; auto|].
      transitivity (own (get w2 (st_pool a))); [destruct H3; auto|]. rewrite H2. ws.
      exact (ev_own _ _ _ (evolves_harvest _ _ _ _ _ _ _ _ _ H1) _).
  - rewrite (paid_nothing _ _ _ _ (HF eq_refl)) in *.
    destruct (harvest_sol_collects _ _ _ _ _ OK S A H T) as (s & vw & SA & SS0 & V & _ & [((E1 & E2) & CL & P)|(NE & kp & K & SY)]).
    + destruct (PA _ _ SS0) as [N1 N2]. eapply G; [|eapply touched_cleared, touched_collected; exact CL|].
      * intros k. split.
        -- intros [<-|[]]. split; [reflexivity|]. exists s, vw. split; [exact SA|]. split; [exact V|]. now rewrite E1, E2, !N.eqb_refl.
        -- intros (_ & s1 & v1 & SA1 & V1 & X). rewrite V in V1. injection V1 as <-.
           assert (s1 = s) as -> by (destruct SA as [_ Q1], SA1 as [_ Q2]; congruence).
           rewrite E1, E2, !N.eqb_refl in X. simpl in X. left. auto.
      * pose proof (P (hs_config a)) as X1. pose proof (P (e_vault e (hs_config a))) as X2. unfold funds. cbn [sum_over].
        rewrite N.eqb_refl in X1. rewrite (proj2 (N.eqb_neq _ _) (not_eq_sym N1)) in X1.
        rewrite (proj2 (N.eqb_neq _ _) (not_eq_sym N2)), (proj2 (N.eqb_neq _ _) (not_eq_sym NV)) in X2. lia.
    + assert (kp <> hs_config a /\ kp <> e_vault e (hs_config a)) as [K1 K2] by (split; congruence).
      destruct (PA _ _ SS0) as [N1 N2].
      destruct SY as [S1 S2 (ks & c1 & ND & SW & _ & IK & OK' & P)]; [exact K1|]. exists ks. split; [exact ND|]. split.
      * assert ((vw_effective vw =? s_lamports s) && (vw_vote vw =? vote (s_del s)) = false) as B.
        { apply andb_false_iff. destruct NE as [NE|NE]; apply N.eqb_neq in NE; auto. }
        intros k. rewrite SW. split.
        -- intros X. split; [reflexivity|]. exists s, vw. split; [exact SA|]. split; [exact V|]. now rewrite B.
        -- intros (_ & s1 & v1 & SA1 & V1 & X). rewrite V in V1. injection V1 as <-.
           assert (s1 = s) as -> by (destruct SA as [_ Q1], SA1 as [_ Q2]; congruence). now rewrite B in X.
      * pose proof (P _ SS0 (hs_config a)) as X1. pose proof (P _ SS0 (e_vault e (hs_config a))) as X2. unfold funds.
        rewrite (no_share e (hs_config a) w (hs_config a) ks) in X1 by (intros k d SD; apply (PA k d SD)).
        rewrite (no_share e (hs_config a) w (e_vault e (hs_config a)) ks) in X2 by (intros k d SD; apply (PA k d SD)).
        rewrite N.eqb_refl in X1. rewrite (proj2 (N.eqb_neq _ _) (not_eq_sym N1)), (proj2 (N.eqb_neq _ _) (not_eq_sym K1)) in X1.
        rewrite (proj2 (N.eqb_neq _ _) (not_eq_sym N2)), (proj2 (N.eqb_neq _ _) (not_eq_sym NV)), (proj2 (N.eqb_neq _ _) (not_eq_sym K2)) in X2. lia.
  - destruct (unstaked_pays _ _ _ _ _ _ OK S A H T) as (TO & P1 & M & HA). eapply G; [|eapply touched_cleared; exact TO|].
    + clear. unfold settles_account. simpl. intuition.
    + eapply moves_funds_exact; eauto. left. split; [|auto]. apply NP. destruct H. destruct H4.
      rewrite <- Hpo. symmetry. transitivity (own (get w2 (un_pool a))); [destruct H3; auto|]. rewrite H2. ws.
      exact (ev_own _ _ _ (evolves_harvest _ _ _ _ _ _ _ _ _ H1) _).
  - destruct (slashed_pays _ _ _ _ _ _ OK S A H T) as [TO M]. eapply G; [|eapply touched_cleared; exact TO|].
    + clear. unfold settles_account. simpl. intuition.
    + rewrite (paid_nothing _ _ _ _ (HF eq_refl)). eapply moves_funds_exact; eauto.
  - destruct (moved_pays _ _ _ _ _ _ A H T) as [TO M]. eapply G; [|eapply touched_cleared; exact TO|].
    + clear. unfold settles_account. simpl. intuition.
    + rewrite (paid_nothing _ _ _ _ (HF eq_refl)). eapply moves_funds_exact; eauto.
  - destruct (overridden_pays _ _ _ _ _ _ A H T) as [TO M]. eapply G; [|eapply touched_cleared; exact TO|].
    + clear. unfold settles_account. simpl. intuition.
    + rewrite (paid_nothing _ _ _ _ (HF eq_refl)). eapply moves_funds_exact; eauto.
Qed.

Lemma balance_reachable e ck oks okh w0 w s : reachable e w0 -> balance e ck oks okh w0 w s -> reachable e w.
Proof. intros R. induction 1; auto; eapply reachable_step; eauto. Qed.
Lemma balance_books e ck oks okh w0 w s : balance e ck oks okh w0 w s ->
  books e ck oks w0 w (shared s) (rewards s) (spread s) (times s).
Proof.
  induction 1; cbn [gifts shared unshared rewards spread times holders blank_sheet].
  - apply books_start.
  - eapply books_other; eauto. intros cx c E. apply (H1 cx c E).
  - eapply books_distribute; eauto. apply H2.
Qed.
Lemma nobody_settled e ck w ev : (forall cx c, ev = Do cx c -> ~ distributes ck c) -> forall k, In k [] <-> settled_by e ck w ev k.
Proof. intros Q k. split; [intros []|]. destruct ev as [cx c|]; [|intros []]. intros [D _]. exact (Q cx c eq_refl D). Qed.
Lemma balance_holders e ck oks okh w0 w s : balance e ck oks okh w0 w s -> holder_books e ck okh w0 w (holders s).
Proof.
  induction 1; cbn [gifts shared unshared rewards spread times holders blank_sheet].
  - apply hbooks_start.
  - eapply hbooks_step; eauto; [intros cx c E; apply (H1 cx c E)|constructor|]. apply nobody_settled. intros cx c E. apply (H1 cx c E).
  - eapply hbooks_step; eauto. intros cx0 c0 [= <- <-]. apply H2.
Qed.
Lemma balance_times e ck oks okh w0 w s : balance e ck oks okh w0 w s -> payments (holders s) = times s.
Proof. induction 1; cbn [gifts shared unshared rewards spread times holders blank_sheet blank_line payments add_line line_of length] in *; lia. Qed.
(** Between distributions the lamports of the config and its vault only grow, and the pool
    pays nothing. *)
Lemma quiet_step e ck w ev w' c : env_ok e -> reachable e w -> step e w ev w' ->
  (forall cx c, ev = Do cx c -> ~ distributes ck c) -> config_at e w ck c ->
  exists c', config_at e w' ck c' /\ cfg_last c' = cfg_last c /\ lam (get w ck) <= lam (get w' ck) /\
    lam (get w (e_vault e ck)) <= lam (get w' (e_vault e ck)) /\ pool_paid e ck w w' = 0.
Proof.
  intros OK R ST ND C. pose proof (inv_reachable _ _ OK R) as I. pose proof (i_sane _ _ I) as SA. destruct ST as [w cx cl w' WC CL RUN|w w' RL].
  - specialize (ND cx cl eq_refl). rewrite distributes_syncs in ND. destruct (N.eq_dec (call_config cl) ck) as [<-|NE].
    + destruct (syncs cl) eqn:Y; [exfalso; auto|].
      destruct (run_quiet _ _ _ _ _ _ OK SA RUN Y C) as (c' & C' & _ & L & _ & M). apply run_ok in RUN as (_ & D & _).
      exists c'. split; [exact C'|]. split; [exact L|]. split; [rewrite M; reflexivity|].
      split; [rewrite (quiet_lam _ _ _ _ _ D Y); reflexivity|]. apply paid_nothing. apply holder_acc_hframe.
      eapply hframe_did; eauto. destruct cl; try discriminate Y; reflexivity.
    + destruct (isolated_run _ _ _ _ _ ck OK R RUN (not_eq_sym NE)) as (_ & _ & CI & LM).
      exists c. split; [now apply CI|]. split; [reflexivity|]. split; [eapply LM; eauto|]. split; [eapply vault_kept; eauto|].
      apply paid_nothing. apply run_ok in RUN as (_ & D & _). eapply holder_acc_other; eauto.
  - destruct C as [O D]. destruct (rely_kept _ _ _ ck RL O) as (O' & D' & L); [intros [z Z]; congruence|].
    exists c. split; [split; congruence|]. split; [reflexivity|]. split; [lia|]. split; [apply (rely_pda_lam _ _ _ _ RL (pda_vault e ck))|].
    destruct (rely_holder _ _ _ RL ck) as [[_ E]|[A _]].
    + apply paid_nothing. unfold holder_acc. now rewrite E.
    + assert (deposit e w ck = 0) as Z.
      { unfold deposit. destruct (dat (get w (e_holder e (e_vault e ck)))) eqn:X; auto. exfalso. eapply A; eauto. }
      unfold pool_paid. rewrite Z, N.mul_0_r. reflexivity.
Qed.
Lemma pending_split e w ck c ks : config_at e w ck c ->
  sum_over (pending e w ck) ks = sum_over (claim_of e w ck c) ks + sum_over (holder_claim_of e w ck) ks.
Proof.
  intros [_ D]. rewrite <- sum_over_plus. induction ks as [|k ks IH]; cbn [sum_over]; [auto|]. rewrite IH. f_equal.
  unfold pending, claim_of, holder_claim_of. rewrite D. destruct (stake_of e w ck k); reflexivity.
Qed.
Lemma unseen_split w ck c : unseen w ck c = waiting w ck c + unowned w ck c.
Proof. unfold unowned, waiting, unseen. destruct (_ =? _); lia. Qed.

(** To the lamport: what the config and its vault hold is what they held before, what was
    sent to them and what the pool paid, less what the stake accounts were paid. *)
Theorem C95_exact e ck oks okh w0 w s c0 c : env_ok e -> reachable e w0 -> config_at e w0 ck c0 ->
  balance e ck oks okh w0 w s -> config_at e w ck c ->
  funds e w ck + (rewards s + paid (holders s)) + unseen w0 ck c0 =
    funds e w0 ck + (gifts s + shared s + unshared s + unseen w ck c) + received (holders s).
Proof.
  intros OK R0 C0 B C.
  assert (exists c, config_at e w ck c /\ funds e w ck + (rewards s + paid (holders s)) + unseen w0 ck c0 =
    funds e w0 ck + (gifts s + shared s + unshared s + unseen w ck c) + received (holders s)) as (c1 & C1 & E).
  2: { assert (c1 = c) as -> by (destruct C, C1; congruence). exact E. }
  clear c C. induction B as [|w s ev w' B IH ST Q O|w s cx c w' cf ks B IH ST DI KA PA C ND IFF O1 O2].
  - exists c0. split; [exact C0|]. cbn. lia.
  - destruct IH as (c & C & E). pose proof (balance_reachable _ _ _ _ _ _ _ R0 B) as R.
    destruct (quiet_step _ _ _ _ _ _ OK R ST (fun cx c E => proj1 (Q cx c E)) C) as (c' & C' & L & L1 & L2 & P).
    pose proof (i_lamp _ _ (inv_reachable _ _ OK R) _ _ C) as [LL _].
    exists c'. split; [exact C'|]. cbn [gifts shared unshared rewards spread times holders add_line received paid line_of sum_over].
    change (advance e ck w w' * deposit e w ck / 10 ^ 18) with (pool_paid e ck w w'). rewrite P. unfold unseen, funds in *. rewrite L. clear - E L1 L2 LL. lia.
  - destruct IH as (c1 & C1 & E). assert (c1 = cf) as -> by (destruct C, C1; congruence). clear C1.
    pose proof (balance_reachable _ _ _ _ _ _ _ R0 B) as R. inversion ST as [? ? ? ? WC CL RUN|]; subst.
    pose proof (inv_reachable _ _ OK R) as I. pose proof (proj1 (distributes_syncs _ _) DI) as [Y CC].
    destruct (run_settles _ _ _ _ _ OK (i_sane _ _ I) (i_wf _ _ I) RUN Y ltac:(rewrite CC; apply KA)) as (c1 & cf' & C1 & C' & _ & L).
    rewrite CC in *. destruct (run_funds _ _ _ _ _ _ _ OK R RUN DI KA PA C) as (ks' & ND' & IFF' & F).
    assert (Permutation ks' ks) as PM.
    { apply NoDup_Permutation; [exact ND'|now apply NoDup_ListNoDup|]. intros k. rewrite !elem_of_list_In, IFF, IFF'. reflexivity. }
    rewrite (sum_over_perm _ _ _ PM), (pending_split _ _ _ _ _ C) in F. exists cf'. split; [exact C'|].
    cbn [gifts shared unshared rewards spread times holders add_line received paid line_of].
    change (advance e ck w w' * deposit e w ck / 10 ^ 18) with (pool_paid e ck w w').
    assert (unseen w' ck cf' = 0) as -> by (unfold unseen; lia). pose proof (unseen_split w ck cf) as U. clear - E F U. lia.
Qed.
Print Assumptions C95_exact.

Lemma claims_split e w ck c : config_at e w ck c -> claims e w ck = stake_claims e w ck c + holder_claims e w ck.
Proof. intros [_ D]. unfold claims, stake_claims, holder_claims. rewrite D. apply sum_of_add. Qed.
Lemma created_start e cx i s au cd b sy du w0 w1 : env_ok e -> reachable e w0 ->
  step e w0 (Do cx (CInitializeConfig i s au cd b sy du)) w1 -> exists c1, config_at e w1 (ic_config i) c1 /\
    credits e w1 (ic_config i) c1 = 0 /\ holder_credits e w1 (ic_config i) = 0 /\ unseen w1 (ic_config i) c1 = 0.
Proof.
  intros OK R ST. pose proof (created_owes_nothing _ _ _ _ _ _ _ _ _ _ _ OK R ST) as H. inversion ST as [? ? ? ? WC CL RUN|]; subst.
  destruct (created_level _ _ _ _ _ _ _ _ _ _ _ OK R RUN) as (c1 & C1 & L & F). exists c1. split; [exact C1|]. split; [|split; [exact H|]].
  - apply N.le_0_r. rewrite <- L. unfold level, credits, owed. apply sum_of_mono. intros d. unfold owing. lia.
  - unfold seen, funds in F. unfold unseen. lia.
Qed.
(** From the creation of the config on, it and its vault hold at least what they were created
    with, what was given to the vault, what arrived while no stake counted, what the stake
    accounts can claim, and the holder rewards that went astray, but for the rounding of the
    pool's payments and what was credited early. *)
Theorem C95_enough e cx i s au cd b sy du w0 w1 w oks okh t c : env_ok e -> reachable e w0 ->
  step e w0 (Do cx (CInitializeConfig i s au cd b sy du)) w1 -> let ck := ic_config i in
  balance e ck oks okh w1 w t -> config_at e w ck c ->
  10 ^ 18 * (funds e w1 ck + (gifts t + unshared t + unowned w ck c) + claims e w ck) + stray (holders t) <=
    10 ^ 18 * (funds e w ck + advances (holders t)) + early (holders t).
Proof.
  intros OK R ST ck B C. pose proof (reachable_step _ _ _ _ R ST) as R1.
  destruct (created_start _ _ _ _ _ _ _ _ _ _ _ OK R ST) as (c1 & C1 & Z1 & Z2 & Z3). fold ck in C1, Z1, Z2, Z3.
  pose proof (C95_exact _ _ _ _ _ _ _ _ _ OK R1 C1 B C) as E. rewrite Z3 in E.
  pose proof (C91_no_more _ _ _ _ _ _ _ _ _ _ _ OK R1 C1 (balance_books _ _ _ _ _ _ _ B) C) as U1. rewrite Z1 in U1.
  pose proof (C94_no_more _ _ _ _ _ _ OK R1 (balance_holders _ _ _ _ _ _ _ B)) as U2. rewrite Z2 in U2.
  rewrite (claims_split _ _ _ _ C). pose proof (unseen_split w ck c) as U. clear - E U1 U2 U. lia.
Qed.
Print Assumptions C95_enough.
(** And no more than that, but for under a lamport for each payment and each claim, of
    either kind, and the rounding of the accumulator. *)
Theorem C95_nothing_else e cx i s au cd b sy du w0 w1 w t c : env_ok e -> reachable e w0 ->
  step e w0 (Do cx (CInitializeConfig i s au cd b sy du)) w1 -> let ck := ic_config i in
  balance e ck (in_range ck) (holder_in_range e ck) w1 w t -> config_at e w ck c ->
  (forall k d, stake_of e w ck k = Some d -> in_range ck w c d) ->
  10 ^ 18 * funds e w ck + early (holders t) <=
    10 ^ 18 * (funds e w1 ck + (gifts t + unshared t + unowned w ck c) + claims e w ck) + stray (holders t) +
    (spread t + cfg_effective c) + 10 ^ 18 * (2 * (times t + stakers e w ck)).
Proof.
  intros OK R ST ck B C IR. pose proof (reachable_step _ _ _ _ R ST) as R1.
  destruct (created_start _ _ _ _ _ _ _ _ _ _ _ OK R ST) as (c1 & C1 & Z1 & Z2 & Z3). fold ck in C1, Z1, Z2, Z3.
  pose proof (C95_exact _ _ _ _ _ _ _ _ _ OK R1 C1 B C) as E. rewrite Z3 in E.
  pose proof (C91_no_less _ _ _ _ _ _ _ _ _ _ OK R1 C1 (balance_books _ _ _ _ _ _ _ B) C IR) as U1. rewrite Z1 in U1.
  pose proof (C94_no_less _ _ _ _ _ OK R1 (balance_holders _ _ _ _ _ _ _ B)) as U2. rewrite Z2, (balance_times _ _ _ _ _ _ _ B) in U2.
  rewrite (claims_split _ _ _ _ C). pose proof (unseen_split w ck c) as U. clear - E U1 U2 U. lia.
Qed.
Print Assumptions C95_nothing_else.
(** Every history in which nobody is paid into the config or its vault has a balance sheet. *)
Theorem C95_every_history e ck w0 w c0 : env_ok e -> reachable e w0 -> config_at e w0 ck c0 -> apart e ck w0 w ->
  exists s, balance e ck (fun _ _ _ => True) (fun _ _ _ => True) w0 w s.
Proof.
  intros OK R0 C0 P. induction P as [|w ev w' P IH ST PA KA]; [eexists; apply balance_start|].
  destruct IH as (s & B). pose proof (balance_reachable _ _ _ _ _ _ _ R0 B) as R.
  destruct (books_credits _ _ _ _ _ _ _ _ _ _ OK R0 C0 (balance_books _ _ _ _ _ _ _ B)) as (cf & C & _).
  destruct ev as [cx c|].
  - assert (distributes ck c \/ ~ distributes ck c) as [DI|NDI].
    { rewrite distributes_syncs. destruct (syncs c), (N.eq_dec (call_config c) ck); intuition congruence. }
    + inversion ST as [? ? ? ? WC CL RUN|]; subst. specialize (KA cx c eq_refl).
      destruct (run_funds _ _ _ _ _ _ _ OK R RUN DI KA PA C) as (ks & ND & IFF & _).
      eexists. eapply balance_distribute; eauto. now apply NoDup_ListNoDup.
    + eexists. eapply balance_other; eauto. intros cx0 c1 [= <- <-]. split; [exact NDI|]. exact (proj1 (KA cx c eq_refl)).
  - eexists. eapply balance_other; eauto. discriminate.
Qed.
Print Assumptions C95_every_history.

(* The example's config is sent 1000000 lamports before anybody has staked, then 777 to its
   vault and 900000 to itself; the pool pays 12500; Bob harvests 650000 + 10000; 100000 more
   arrive.  Of the lamports in both accounts, one is rounding. *)
Definition sheet_story : list act := firstn 4 setup ++
  [ Pay carol kcfg 1000000; stake_val vote1 alice atok alice 500; stake_sol nat1 bob btok bob 2000 0;
    Pay carol (e_vault denv kcfg) 777; Pay carol kcfg 900000; harvest_holder (50003 * 10 ^ 14);
    harvest_sol nat1 bob vote1 alice vote1 alice None (View vote1 bob 1000); Pay carol kcfg 100000 ].
Definition ledger (n : nat) : world := at_end (firstn n sheet_story).
Definition payees_apartb (w : world) : bool :=
  forallb (fun x : N * account => match stake_in denv kcfg (fst x) (snd x) with
    | Some d => negb (authority d =? kcfg) && negb (authority d =? e_vault denv kcfg)
    | None => true end) (map_to_list w).
Lemma payees_apartb_ok w : payees_apartb w = true -> payees_apart denv kcfg w.
Proof.
  intros H k d S. unfold payees_apartb in H. rewrite forallb_forall in H. unfold stake_of, get in S.
  destruct (w !! k) as [a|] eqn:E; [|discriminate]. simpl in S. apply elem_of_map_to_list, elem_of_list_In in E.
  specialize (H _ E). cbn [fst snd] in H. rewrite S in H. apply andb_true_iff in H as [H1 H2].
  apply negb_true_iff in H1, H2. b2p H1. b2p H2. auto.
Qed.
Notation sheets_from := (balance denv kcfg (in_range kcfg) (holder_in_range denv kcfg)).
Notation sheets := (sheets_from (ledger 1)).
Lemma sheet_quiet w0 w s ev w' s' : sheets_from w0 w s -> step denv w ev w' ->
  (forall cx c, ev = Do cx c -> ~ distributes kcfg c /\ keeper_in c <> Some kcfg) -> all_holder_range w w' = true ->
  Sheet (gifts s + (lam (get w' (e_vault denv kcfg)) - lam (get w (e_vault denv kcfg)))) (shared s) (unshared s) (rewards s)
    (spread s) (times s) (add_line (holders s) (line_of denv kcfg w ev w' [])) = s' -> sheets_from w0 w' s'.
Proof. intros B ST Q RG <-. eapply balance_other; eauto. now apply all_holder_range_ok. Qed.
Lemma sheet_shared w0 w s cx c w' cf ks s' : sheets_from w0 w s -> step denv w (Do cx c) w' ->
  distributes kcfg c -> keeper_apart denv kcfg c -> payees_apartb w = true -> config_at denv w kcfg cf ->
  List.NoDup ks -> (forall k, In k ks <-> settles_account denv cx w kcfg k c) ->
  (forall k d, stake_of denv w kcfg k = Some d -> in_range kcfg w cf d) -> all_holder_range w w' = true ->
  Sheet (gifts s) (shared s + waiting w kcfg cf) (unshared s + unowned w kcfg cf)
    (rewards s + sum_over (claim_of denv w kcfg cf) ks) (spread s + cfg_effective cf)
    (times s + N.of_nat (length ks)) (add_line (holders s) (line_of denv kcfg w (Do cx c) w' ks)) = s' -> sheets_from w0 w' s'.
Proof. intros B ST DI KA PA C ND IFF O RG <-. eapply balance_distribute; eauto using payees_apartb_ok. now apply all_holder_range_ok. Qed.
Ltac share_out n s a ks := eapply (sheet_shared _ (ledger n) s _ _ _ (cfg_of (ledger n) kcfg) ks);
  [|apply (at_end_step (firstn n sheet_story) a); vm_compute; reflexivity
   |reflexivity
   |split; discriminate
   |vm_compute; reflexivity
   |split; vm_compute; reflexivity
   |first [apply List.NoDup_nil|apply List.NoDup_cons; [intros []|apply List.NoDup_nil]]
   |
   |apply all_in_range_ok; vm_compute; reflexivity
   |vm_compute; reflexivity
   |vm_compute; reflexivity].
Definition sheet5 : sheet := Sheet 0 0 0 0 0 0 blank_line.
Definition sheet6 : sheet := Sheet 0 0 1000000 0 0 1 (Line 0 0 0 0 0 1).
Definition sheet7 : sheet := Sheet 0 0 1000000 0 500 2 (Line 0 0 0 0 0 2).
Definition sheet9 : sheet := Sheet 777 0 1000000 0 500 2 (Line 0 0 0 0 0 2).
Definition sheet10 : sheet := Sheet 777 900000 1000000 0 2300 2 (Line 12500 0 0 0 1 2).
Definition sheet12 : sheet := Sheet 777 900000 1000000 650000 4100 3 (Line 12500 10000 0 0 1 3).
Lemma sheet_steps : sheets (ledger 12) sheet12.
Proof.
  assert (sheets (ledger 5) sheet5) as B5.
  { eapply (sheet_quiet _ (ledger 4) sheet5);
      [|apply (at_end_step (firstn 4 sheet_story) (Pay carol kcfg 1000000)); vm_compute; reflexivity|discriminate|vm_compute; reflexivity|vm_compute; reflexivity].
    eapply (sheet_quiet _ (ledger 3) sheet5);
      [|apply (at_end_step (firstn 3 sheet_story) (init_sol nat1 vote1 bob 1000)); vm_compute; reflexivity|intros ? ? [= <- <-]; split; [intros []|discriminate]|vm_compute; reflexivity|vm_compute; reflexivity].
    eapply (sheet_quiet _ (ledger 2) sheet5);
      [|apply (at_end_step (firstn 2 sheet_story) (init_val vote2 dave)); vm_compute; reflexivity|intros ? ? [= <- <-]; split; [intros []|discriminate]|vm_compute; reflexivity|vm_compute; reflexivity].
    eapply (sheet_quiet _ (ledger 1) sheet5);
      [|apply (at_end_step (firstn 1 sheet_story) (init_val vote1 alice)); vm_compute; reflexivity|intros ? ? [= <- <-]; split; [intros []|discriminate]|vm_compute; reflexivity|vm_compute; reflexivity].
    apply balance_start. }
  assert (sheets (ledger 7) sheet7) as B7.
  { assert (sheets (ledger 6) sheet6) as B6.
    { share_out 5%nat sheet5 (stake_val vote1 alice atok alice 500) [kval1]; [exact B5|unfold settles_account; simpl; intuition]. }
    share_out 6%nat sheet6 (stake_sol nat1 bob btok bob 2000 0) [ksol1]; [exact B6|unfold settles_account; simpl; intuition]. }
  assert (sheets (ledger 9) sheet9) as B9.
  { eapply (sheet_quiet _ (ledger 8) sheet9);
      [|apply (at_end_step (firstn 8 sheet_story) (Pay carol kcfg 900000)); vm_compute; reflexivity|discriminate|vm_compute; reflexivity|vm_compute; reflexivity].
    eapply (sheet_quiet _ (ledger 7) sheet7);
      [exact B7|apply (at_end_step (firstn 7 sheet_story) (Pay carol (e_vault denv kcfg) 777)); vm_compute; reflexivity|discriminate|vm_compute; reflexivity|vm_compute; reflexivity]. }
  assert (sheets (ledger 10) sheet10) as B10.
  { share_out 9%nat sheet9 (harvest_holder (50003 * 10 ^ 14)) (@nil N); [exact B9|intros k; split; [intros []|intros [_ []]]]. }
  eapply (sheet_quiet _ (ledger 11) sheet12);
    [|apply (at_end_step (firstn 11 sheet_story) (Pay carol kcfg 100000)); vm_compute; reflexivity|discriminate|vm_compute; reflexivity|vm_compute; reflexivity].
  share_out 10%nat sheet10 (harvest_sol nat1 bob vote1 alice vote1 alice None (View vote1 bob 1000)) [ksol1]; [exact B10|].
  intros k. split.
  - intros [<-|[]]. split; [reflexivity|]. exists (sol_of (ledger 10) ksol1), (View vote1 bob 1000). split; [split; vm_compute; reflexivity|].
    split; [reflexivity|]. vm_compute. reflexivity.
  - intros (_ & s & v & [_ SA] & [= <-] & X). left.
    assert (s = sol_of (ledger 10) ksol1) as -> by (unfold sol_of; change (hs_stake _) with ksol1 in SA; now rewrite SA).
    match type of X with if ?b then _ else _ => assert (b = true) as Y by (vm_compute; reflexivity) end. rewrite Y in X. now symmetry.
Qed.
Ltac away n a := eapply (apart_on _ _ _ (ledger n));
  [|apply (at_end_step (firstn n sheet_story) a); vm_compute; reflexivity
   |apply payees_apartb_ok; vm_compute; reflexivity
   |intros ? ? [=]; subst; split; discriminate].
Example C95_case : let w := ledger 12 in
  (exists cx a, step denv world0 (Do cx (CInitializeConfig a slasher gov 1000 5000 100 docs)) (ledger 1) /\ ic_config a = kcfg) /\
  sheets w sheet12 /\ apart denv kcfg (ledger 1) w /\ config_at denv w kcfg (cfg_of w kcfg) /\
  (forall k d, stake_of denv w kcfg k = Some d -> in_range kcfg w (cfg_of w kcfg) d) /\
  funds denv (ledger 1) kcfg = 3118080 /\ claims denv w kcfg = 352499 /\ unowned w kcfg (cfg_of w kcfg) = 0 /\
  funds denv w kcfg = 3118080 + 777 + 1000000 + 352499 + 1.
Proof.
  cbv zeta. split; [exact first_step|]. split; [exact sheet_steps|]. split.
  { away 11%nat (Pay carol kcfg 100000). away 10%nat (harvest_sol nat1 bob vote1 alice vote1 alice None (View vote1 bob 1000)).
    away 9%nat (harvest_holder (50003 * 10 ^ 14)). away 8%nat (Pay carol kcfg 900000). away 7%nat (Pay carol (e_vault denv kcfg) 777).
    away 6%nat (stake_sol nat1 bob btok bob 2000 0). away 5%nat (stake_val vote1 alice atok alice 500). away 4%nat (Pay carol kcfg 1000000).
    away 3%nat (init_sol nat1 vote1 bob 1000). away 2%nat (init_val vote2 dave). away 1%nat (init_val vote1 alice). apply apart_start. }
  split; [split; vm_compute; reflexivity|]. split; [apply all_in_range_ok; vm_compute; reflexivity|].
  split; [vm_compute; reflexivity|]. split; [vm_compute; reflexivity|]. split; vm_compute; reflexivity.
Qed.
