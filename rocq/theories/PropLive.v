(** Instructions that are well formed and affordable go through; three expected
    cases that do not. *)
From Verif Require Import Base Types Layout Instr Math External Processor Runtime History Spec SpecReward SpecSolvency SpecLive
  WorldLemmas Effects Handlers Evolve Sane Wf Totals Arith Nets Caps Stakers Deposits Inv Life Tokens Gov Flow
  Rewards Collect Pays Progress Demo PropState PropTokens PropAuth PropReward Solvency Live LiveTokens LiveStake.

(** Concrete cases are checked by computation. *)
Ltac calc := first [vm_compute; reflexivity | vm_compute; discriminate].
Ltac calcs := match goal with
  | |- _ /\ _ => split; calcs
  | |- config_at _ _ _ _ => split; calcs
  | |- sol_at _ _ _ _ => split; calcs
  | |- liquid _ _ _ _ _ _ => split; calcs
  | |- cappable _ _ => vm_compute; reflexivity
  | |- _ = _ => vm_compute; reflexivity
  | |- _ <> _ => vm_compute; discriminate
  | |- _ < _ => vm_compute; reflexivity
  | |- _ <= _ => vm_compute; discriminate
  end.
Lemma NoDup_nodup_eq (l : list N) : nodup N.eq_dec l = l -> List.NoDup l.
Proof. intros <-. apply NoDup_nodup. Qed.
Definition hold_of (w : world) (k : N) : holder := match dat (get w k) with DHolder h => h | _ => Hold 0 0 end.
Definition mint_of (w : world) (k : N) : mint := match dat (get w k) with DMint m => m | _ => Mnt 0 0 end.
Definition tok_of (w : world) (k : N) : token :=
  match dat (get w k) with DToken t => t | _ => Tok 0 0 0 None 0 None false end.
Ltac in_list := intros k I; simpl in I;
  repeat (destruct I as [I|I]; [try injection I as <-; subst; calc|]); try contradiction; try (injection I as <-; calc).
Ltac one_claim k0 := exists [k0]; split; [repeat constructor; rewrite ?elem_of_cons, ?elem_of_nil; intuition discriminate|];
  split; [intros k ->; left; reflexivity|calc].

(** ** C36: the program's own checks never fire *)
(** Every subtraction and addition on the effective totals is in range. *)
Theorem C36_effective_in_range e w ck c k d : env_ok e -> reachable e w -> config_at e w ck c ->
  stake_of e w ck k = Some d ->
  effective d <= cfg_effective c /\ cfg_effective c - effective d + staked d <= deposit e w ck.
Proof.
  intros OK R C S. pose proof (inv_reachable _ _ OK R) as I.
  assert (forall k d, stake_of e w ck k = Some d -> effective d <= staked d) as LE.
  { intros k' d' S'. apply stake_of_some in S' as (O & D & _). pose proof (i_caps _ _ I k' O) as K.
    apply del_of_ok in D as [(v & D & <-)|(s & D & <-)]; rewrite D in K; simpl in K; lia. }
  assert (cfg_effective c = sum_of e w ck effective) as E by (apply (i_eff _ _ I); auto).
  pose proof (i_backed _ _ I ck) as BK. rewrite E. split; [now apply (sum_of_ge e w ck effective k d)|].
  assert (sum_of e w ck staked = sum_of e w ck effective + sum_of e w ck (fun d => staked d - effective d)) as EQ.
  { rewrite <- sum_of_add. apply sum_of_same. intros k' d' S'. specialize (LE _ _ S'). lia. }
  pose proof (sum_of_ge e w ck (fun d => staked d - effective d) k d S) as G. cbv beta in G.
  specialize (LE _ _ S). pose proof (sum_of_ge e w ck effective k d S). lia.
Qed.
Print Assumptions C36_effective_in_range.
(** A SOL staker without a validator records no SOL; one with a validator records
    at most that validator's total. *)
Theorem C36_totals_in_range e w ck k s : env_ok e -> reachable e w -> sol_at e w k s -> k = e_sol e (s_native s) ck ->
  (vote (s_del s) = 0 -> s_lamports s = 0) /\
  (vote (s_del s) <> 0 -> exists v, val_at e w (e_val e (vote (s_del s)) ck) v /\ vote (v_del v) = vote (s_del s) /\
     s_lamports s <= v_total v).
Proof.
  intros OK R SA K. pose proof (inv_reachable _ _ OK R) as I. split.
  - destruct (i_totals _ _ I) as [_ SK]. apply (SK _ _ _ SA K).
  - now apply (limits_total e w ck k s).
Qed.
Print Assumptions C36_totals_in_range.
Example C36_range_case : let w := at_end (firstn 11 story) in
  reachable denv w /\ config_at denv w kcfg (cfg_of w kcfg) /\ stake_of denv w kcfg ksol1 = Some (s_del (sol_of w ksol1)) /\
  sol_at denv w ksol1 (sol_of w ksol1) /\ ksol1 = e_sol denv (s_native (sol_of w ksol1)) kcfg /\
  vote (s_del (sol_of w ksol1)) = vote2 /\ s_lamports (sol_of w ksol1) = 700 /\ v_total (val_of w kval2) = 700 /\
  effective (s_del (sol_of w ksol1)) = 910 /\ cfg_effective (cfg_of w kcfg) = 910 /\
  staked (s_del (sol_of w ksol1)) = 2000 /\ deposit denv w kcfg = 2500.
Proof. split; [apply at_end_reachable; vm_compute; reflexivity|]. vm_compute. auto 20. Qed.
(** So a harvest with synchronisation whose rewards the config can pay succeeds,
    whatever validators the staker leaves and joins. *)
Theorem C36_sync_harvest_succeeds e cx a w s vw : env_ok e -> reachable e w -> wf_ctx e cx ->
  settled_chain e w (hs_config a) -> good_harvest_sol e cx a w s vw ->
  exists w', step e w (Do cx (CHarvestSolStakerRewards a)) w'.
Proof.
  intros OK R WC SC G. assert (vw_effective vw < U64) as V.
  { destruct WC as (_ & _ & W). destruct (gh_view _ _ _ _ _ _ G) as [_ E]. now apply (W _ E). }
  destruct (harvest_sol_goes e cx a w s vw OK (inv_reachable _ _ OK R) SC G V) as [w' RUN]. exists w'.
  now constructor.
Qed.
Print Assumptions C36_sync_harvest_succeeds.
Example C36_case : let l := firstn 9 story in let w := at_end l in
  let vw := View vote2 bob 700 in
  let a := HarvestSolA (e_view denv) kcfg kvhr ksol1 bob nat1 kval1 alice kval2 dave (Some carol) in
  reachable denv w /\ wf_ctx denv (cx [] 0 (Some vw) 0) /\ settled_chain denv w kcfg /\
  good_harvest_sol denv (cx [] 0 (Some vw) 0) a w (sol_of w ksol1) vw /\
  pending denv w kcfg ksol1 = 10000 /\ pending denv w kcfg kval1 = 280277 /\ s_lamports (sol_of w ksol1) = 1000.
Proof.
  cbv zeta. set (w := at_end (firstn 9 story)).
  split; [apply at_end_reachable; vm_compute; reflexivity|]. split; [apply ctx_ok_wf; vm_compute; reflexivity|].
  split; [split; [exists (hold_of w kvhr)|]; vm_compute; reflexivity|].
  split; [|vm_compute; auto].
  split; try (calcs; fail).
  - exists (cfg_of w kcfg). calcs.
  - exists carol. split; [reflexivity|vm_compute; discriminate].
  - intros _. split; [vm_compute; reflexivity|]. intros v [_ D].
    assert (v = val_of w kval1) as -> by (unfold val_of; change (hs_prev _) with kval1 in D; now rewrite D).
    calcs.
  - intros _. split; [vm_compute; reflexivity|]. intros v [_ D].
    assert (v = val_of w kval2) as -> by (unfold val_of; change (hs_cur _) with kval2 in D; now rewrite D).
    calcs.
  - exists [ksol1; kval1; kval2]. split; [apply NoDup_ListNoDup; apply NoDup_nodup_eq; vm_compute; reflexivity|]. split; [|calc].
    intros k [->|[[_ ->]|(_ & -> & _)]].
    + left. vm_compute. reflexivity. + right. left. vm_compute. reflexivity. + right. right. left. vm_compute. reflexivity.
  - intros k [I|I]; [revert k I; in_list|injection I as <-; calc].
Qed.

(** ** C33: a stake authority can get tokens out *)
Theorem C33_unstake_succeeds e cx a n w c d : env_ok e -> reachable e w -> wf_ctx e cx -> n < 2 ^ 64 ->
  settled_chain e w (un_config a) -> good_unstake e cx a n w c d ->
  exists w', step e w (Do cx (CUnstakeTokens a n)) w'.
Proof.
  intros OK R WC NB SC G. assert (c_now cx < U64) as V by apply WC.
  destruct (unstake_goes e cx a n w c d OK (inv_reachable _ _ OK R) SC G V) as [w' RUN]. exists w'. now constructor.
Qed.
Print Assumptions C33_unstake_succeeds.
Example C33_case : let w := at_end (firstn 14 story) in
  let a := UnstakeA kcfg kpool kptok ksol2 bob kvtok kpda kvhr kmint btok (e_token denv) in
  let x := cx [bob] 5000 None (6 * 10 ^ 18) in
  reachable denv w /\ wf_ctx denv x /\ settled_chain denv w kcfg /\
  good_unstake denv x a 400 w (cfg_of w kcfg) (s_del (sol_of w ksol2)) /\ 400 = staked (s_del (sol_of w ksol2)) * 5000 / 10000.
Proof.
  cbv zeta. set (w := at_end (firstn 14 story)).
  split; [apply at_end_reachable; vm_compute; reflexivity|]. split; [apply ctx_ok_wf; vm_compute; reflexivity|].
  split; [split; [exists (hold_of w kvhr)|]; vm_compute; reflexivity|].
  split; [|vm_compute; reflexivity].
  split; try (calcs; fail).
  - repeat split; try calc. vm_compute. intuition discriminate.
  - split; [vm_compute; reflexivity|]. exists (mint_of w kmint). vm_compute. reflexivity.
  - exists (tok_of w kvtok). split; [calcs|calc].
  - exists (tok_of w kptok). split; [calcs|calc].
  - exists (tok_of w btok), bob. split; [calcs|]. split; [calc|]. split; calc.
  - split; [intros v D; exfalso; revert D; calc|]. intros s D. change (un_stake _) with ksol2 in D.
    assert (s = sol_of w ksol2) as -> by (unfold sol_of; now rewrite D). calc.
  - one_claim ksol2.
  - in_list.
Qed.

(** ** C47: moving between one's own stakes *)
Theorem C47_move_succeeds e cx a n w s t : env_ok e -> reachable e w -> wf_ctx e cx -> n < 2 ^ 64 ->
  settled_chain e w (mv_config a) -> good_move e cx a n w s t ->
  exists w', step e w (Do cx (CSolStakerMoveTokens a n)) w'.
Proof.
  intros OK R WC NB SC G.
  destruct (move_goes e cx a n w s t OK (inv_reachable _ _ OK R) SC G) as [w' RUN]. exists w'. now constructor.
Qed.
Print Assumptions C47_move_succeeds.
Example C47_case : let w := at_end (firstn 13 story) in
  let a := MoveA kcfg kvhr bob ksol1 ksol2 in
  reachable denv w /\ wf_ctx denv (cx [bob] 0 None 0) /\ settled_chain denv w kcfg /\
  good_move denv (cx [bob] 0 None 0) a 2000 w (sol_of w ksol1) (sol_of w ksol2) /\
  staked (s_del (sol_of w ksol1)) = 2000 /\ pending denv w kcfg ksol1 = 777777.
Proof.
  cbv zeta. set (w := at_end (firstn 13 story)).
  split; [apply at_end_reachable; vm_compute; reflexivity|]. split; [apply ctx_ok_wf; vm_compute; reflexivity|].
  split; [split; [exists (hold_of w kvhr)|]; vm_compute; reflexivity|].
  split; [|vm_compute; auto].
  split; try (calcs; fail).
  - exists (cfg_of w kcfg). calcs.
  - exists [ksol1; ksol2]. split; [apply NoDup_ListNoDup; apply NoDup_nodup_eq; vm_compute; reflexivity|].
    split; [intros k [-> | ->]; vm_compute; auto|calc].
  - in_list.
Qed.

(** ** C38: topping up a stake *)
(** It goes through when nothing is pending or somebody else's wallet pays. *)
Theorem C38_top_up_succeeds e cx a n w c d ca : env_ok e -> reachable e w -> wf_ctx e cx -> n < 2 ^ 64 ->
  settled_chain e w (st_config a) -> good_stake e cx a n w c d -> stake_call (dat (get w (st_stake a))) a n = Some ca ->
  pending e w (st_config a) (st_stake a) = 0 \/ st_source_auth a <> st_authority a ->
  exists w', step e w (Do cx ca) w'.
Proof.
  intros OK R WC NB SC G CA P.
  destruct (stake_goes e cx a n w c d ca OK (inv_reachable _ _ OK R) SC G CA P) as [w' RUN]. exists w'. constructor; auto.
  destruct (dat (get w (st_stake a))); try discriminate; injection CA as <-; exact NB.
Qed.
Print Assumptions C38_top_up_succeeds.
(** It never goes through with the authority's own wallet while a reward is pending. *)
Lemma lsum_one w w' x r ks : (forall k, In k ks -> lam (get w' k) = lam (get w k) + (if x =? k then r else 0)) ->
  In x ks -> NoDup ks -> lsum w' ks = lsum w ks + r.
Proof.
  intros H I ND. induction ND as [|k ks NI ND IH]; [destruct I|]. cbn [lsum fold_right]. fold (lsum w' ks) (lsum w ks).
  rewrite elem_of_list_In in NI. rewrite (H k (or_introl eq_refl)). destruct (N.eqb_spec x k) as [->|NE].
  - rewrite (lsum_same w w' ks); [lia|]. intros j J. rewrite (H j (or_intror J)). destruct (N.eqb_spec k j); [congruence|lia].
  - destruct I as [|I]; [congruence|]. rewrite IH; auto; [lia|]. intros j J. apply H. right. auto.
Qed.
Theorem C38_own_wallet_needs_nothing_pending e cx a n w w' c : env_ok e -> reachable e w ->
  c = CValidatorStakeTokens a n \/ c = CSolStakerStakeTokens a n -> run e cx c w = Ok w' ->
  st_source_auth a = st_authority a -> pending e w (st_config a) (st_stake a) = 0.
Proof.
  intros OK R E RUN W. apply run_ok in RUN as (_ & D & T & _). pose proof (reach_acc_ok _ _ (st_config a) OK R) as A.
  assert (staked_any e cx a n w w') as H by (destruct E as [-> | ->]; inversion D; auto). clear D E.
  destruct H as [c0 Hco Hc0 Hso Hbel H]. destruct H. set (ck := st_config a) in *. set (sk := st_stake a) in *.
  destruct (harvested_net _ _ _ _ _ _ _ _ _ H1) as (cc & d1 & h & rpt & sr & hr & RD & AU & _ & O1 & L1 & _).
  assert (DC := rd_c _ _ _ _ _ _ _ _ _ _ _ RD). assert (DS := rd_d _ _ _ _ _ _ _ _ _ _ _ RD).
  destruct (reading_claims _ _ _ _ _ _ _ _ _ _ (A _ DC) RD) as (E1 & E2 & _).
  assert (stake_of e w ck sk = Some d1) as SD by (apply stake_of_intro; auto).
  assert (pending e w ck sk = sr + hr) as -> by (unfold pending; rewrite SD, DC; congruence).
  set (ks := [st_source a; st_mint a; st_vault a; st_source_auth a]) in *.
  assert (~ In ck ks) as NC. { intros I. apply (Hu ck); [apply in_or_app; auto|left; auto]. }
  assert (forall k, In k (nodup N.eq_dec ks) -> lam (get w3 k) = lam (get w k) + (if st_authority a =? k then sr + hr else 0)) as L3.
  { intros k I. apply nodup_In in I. assert (ck <> k) as NK by congruence. destruct H3. rewrite Hlams, H2. ws. rewrite L1.
    unfold paid_lam, keeper_part, keeper_lam. destruct (N.eqb_spec (st_authority a) k) as [->|]; [lia|].
    rewrite (proj2 (N.eqb_neq _ _) NK). lia. }
  assert (In (st_authority a) (nodup N.eq_dec ks)) as IA by (apply nodup_In; rewrite <- W; unfold ks; simpl; auto).
  pose proof (lsum_one w w3 _ _ _ L3 IA ltac:(apply NoDup_ListNoDup, NoDup_nodup)) as LS.
  unfold lam_sum in Hsum1. change (lsum w3 (nodup N.eq_dec ks) = lsum w (nodup N.eq_dec ks)) in Hsum1. lia.
Qed.
Print Assumptions C38_own_wallet_needs_nothing_pending.
Lemma good_top_up_case src sa acc : (src = atok /\ sa = alice /\ acc = 2 * 10 ^ 18) \/ (src = btok /\ sa = bob /\ acc = 0) ->
  let w := at_end (setup ++ [Pay carol kcfg 1000000]) in
  good_stake denv (cx [sa] 0 None acc) (stake_accts_of ksol1 bob src sa) 1000 w (cfg_of w kcfg) (s_del (sol_of w ksol1)).
Proof.
  intros [(-> & -> & ->)|(-> & -> & ->)] w; (split; try (calcs; fail)).
  1,9: split; [calcs|]; split; [calcs|]; vm_compute; intuition discriminate.
  1,8: split; [calcs|]; exists (mint_of w kmint); calcs.
  1: exists (tok_of w atok); calcs.
  6: exists (tok_of w btok); calcs.
  1,6: exists (tok_of w kvtok); calcs.
  1,5: exists (tok_of w kptok); calcs.
  1,4: split; [intros v D; exfalso; revert D; calc|]; intros s D; change (st_stake _) with ksol1 in D;
    assert (s = sol_of w ksol1) as -> by (unfold sol_of; now rewrite D); calc.
  1,3: one_claim ksol1.
  all: in_list.
Qed.
Example C38_case : let w := at_end (setup ++ [Pay carol kcfg 1000000]) in
  let x := cx [alice] 0 None (2 * 10 ^ 18) in let a := stake_accts_of ksol1 bob atok alice in
  reachable denv w /\ wf_ctx denv x /\ settled_chain denv w kcfg /\
  good_stake denv x a 1000 w (cfg_of w kcfg) (s_del (sol_of w ksol1)) /\
  stake_call (dat (get w ksol1)) a 1000 = Some (CSolStakerStakeTokens a 1000) /\
  st_source_auth a <> st_authority a /\ pending denv w kcfg ksol1 = 722222.
Proof.
  cbv zeta. split; [apply at_end_reachable; vm_compute; reflexivity|]. split; [apply ctx_ok_wf; vm_compute; reflexivity|].
  split; [split; [exists (hold_of (at_end (setup ++ [Pay carol kcfg 1000000])) kvhr)|]; vm_compute; reflexivity|].
  split; [apply good_top_up_case; auto|]. vm_compute. repeat split; congruence.
Qed.
(** The expectation is false: the same deposit from the authority's own wallet fails. *)
Theorem C38_top_up_refuted : exists e cx a n w c d ca,
  env_ok e /\ reachable e w /\ wf_ctx e cx /\ wf_call ca /\ settled_chain e w (st_config a) /\
  good_stake e cx a n w c d /\ stake_call (dat (get w (st_stake a))) a n = Some ca /\
  0 < pending e w (st_config a) (st_stake a) /\ run e cx ca w = Err UnbalancedInstruction.
Proof.
  set (w := at_end (setup ++ [Pay carol kcfg 1000000])).
  exists denv, (cx [bob] 0 None 0), (stake_accts_of ksol1 bob btok bob), 1000, w, (cfg_of w kcfg), (s_del (sol_of w ksol1)),
    (CSolStakerStakeTokens (stake_accts_of ksol1 bob btok bob) 1000).
  split; [apply denv_ok|]. split; [apply at_end_reachable; vm_compute; reflexivity|].
  split; [apply ctx_ok_wf; vm_compute; reflexivity|]. split; [calc|].
  split; [split; [exists (hold_of w kvhr)|]; vm_compute; reflexivity|].
  split; [apply good_top_up_case; auto|]. split; [vm_compute; reflexivity|]. split; calc.
Qed.
Print Assumptions C38_top_up_refuted.

(** ** C09: slashing *)
(** It goes through when the vault account holds the tokens to burn. *)
Theorem C09_funded_slash_succeeds e cx a n w c d t ca : env_ok e -> reachable e w -> wf_ctx e cx -> n < 2 ^ 64 ->
  settled_chain e w (sl_config a) -> good_slash e cx a n w c d t -> slash_call (dat (get w (sl_stake a))) a n = Some ca ->
  N.min n (staked d) <= t_amount t -> exists w', step e w (Do cx ca) w'.
Proof.
  intros OK R WC NB SC G CA P.
  destruct (slash_goes e cx a n w c d t ca OK (inv_reachable _ _ OK R) SC G CA P) as [w' RUN]. exists w'. constructor; auto.
  destruct (dat (get w (sl_stake a))); try discriminate; injection CA as <-; exact NB.
Qed.
Print Assumptions C09_funded_slash_succeeds.
(** It never goes through when the vault holds less, although the staked tokens
    are all in the rewards pool. *)
Theorem C09_slash_needs_funded_vault e cx a n w w' ca : env_ok e ->
  ca = CSlashValidatorStake a n \/ ca = CSlashSolStakerStake a n -> run e cx ca w = Ok w' ->
  exists c d, config_at e w (sl_config a) c /\ stake_of e w (sl_config a) (sl_stake a) = Some d /\
    N.min n (staked d) <= tokens e w (cfg_vault c).
Proof.
  intros OK E RUN. assert (slashing ca = Some (a, n)) as SL by (destruct E as [-> | ->]; reflexivity).
  destruct (C08_slash_exact e cx ca a n w w' OK SL RUN) as (d & d' & S & _ & _ & _ & _ & TK & _).
  apply run_ok in RUN as (_ & D & _).
  assert (slashed_any e cx a n w w') as H by (destruct E as [-> | ->]; inversion D; auto). clear D E.
  destruct H as [c0 Hco Hc0 Hso Hbel H]. exists c0, d. split; [split; auto|]. split; [auto|].
  assert (sl_vault a = cfg_vault c0) as V.
  { destruct H. destruct (harvested_net _ _ _ _ _ _ _ _ _ H1) as (cc & d1 & h & rpt & sr & hr & RD & _ & _ & _ & _ & C1 & _).
    assert (DC := rd_c _ _ _ _ _ _ _ _ _ _ _ RD). rewrite Hc in C1. injection C1 as ->. rewrite Hv.
    rewrite Hc0 in DC. injection DC as <-. reflexivity. }
  rewrite <- V. specialize (TK (sl_vault a)). rewrite N.eqb_refl in TK. lia.
Qed.
Print Assumptions C09_slash_needs_funded_vault.
Definition slash_accts_of (sk auth : N) : slash_accts := SlashA kcfg sk auth slasher kvtok kvhr kpda kmint (e_token denv).
Lemma good_slash_case l n : 
  let w := at_end l in forall t, dat (get w kvtok) = DToken t ->
  (l = setup \/ l = setup ++ [Set_ kvtok (tok kmint kpda 900)]) -> n = 700 ->
  good_slash denv (cx [slasher] 0 None 0) (slash_accts_of ksol1 bob) n w (cfg_of w kcfg) (s_del (sol_of w ksol1)) t.
Proof.
  intros w t TD P ->. unfold w in *. clear w.
  assert (t = match dat (get (at_end l) kvtok) with DToken t => t | _ => t end) as TE by now rewrite TD.
  destruct P as [-> | ->]; vm_compute in TE; subst t; clear TD.
  all: split; try (calcs; fail).
  1,6: split; [calcs|]; split; [calcs|]; vm_compute; intuition discriminate.
  1,5: split; [calcs|]; exists (mint_of (at_end setup) kmint); calcs.
  1,4: split; [intros v D; exfalso; revert D; calc|]; intros s D; change (sl_stake _) with ksol1 in D;
    match type of D with dat (get ?w _) = _ => assert (s = sol_of w ksol1) as -> by (unfold sol_of; now rewrite D) end; calc.
  1,3: one_claim ksol1.
  all: in_list.
Qed.
Example C09_case : let l := setup ++ [Set_ kvtok (tok kmint kpda 900)] in let w := at_end l in
  reachable denv w /\ wf_ctx denv (cx [slasher] 0 None 0) /\ settled_chain denv w kcfg /\
  slash_call (dat (get w ksol1)) (slash_accts_of ksol1 bob) 700 = Some (CSlashSolStakerStake (slash_accts_of ksol1 bob) 700) /\
  exists t, good_slash denv (cx [slasher] 0 None 0) (slash_accts_of ksol1 bob) 700 w (cfg_of w kcfg) (s_del (sol_of w ksol1)) t /\
    t_amount t = 900 /\ staked (s_del (sol_of w ksol1)) = 2000.
Proof.
  cbv zeta. split; [apply at_end_reachable; vm_compute; reflexivity|]. split; [apply ctx_ok_wf; vm_compute; reflexivity|].
  split; [split; [exists (hold_of (at_end (setup ++ [Set_ kvtok (tok kmint kpda 900)])) kvhr)|]; vm_compute; reflexivity|].
  split; [vm_compute; reflexivity|].
  exists (Tok kmint kpda 900 None 0 None false). split; [|vm_compute; auto].
  apply good_slash_case; [vm_compute; reflexivity|auto|reflexivity].
Qed.
(** The expectation is false: right after staking the vault is empty, and the slash fails. *)
Theorem C09_slash_refuted : exists e cx a n w c d t ca,
  env_ok e /\ reachable e w /\ wf_ctx e cx /\ wf_call ca /\ settled_chain e w (sl_config a) /\
  good_slash e cx a n w c d t /\ slash_call (dat (get w (sl_stake a))) a n = Some ca /\
  n <= staked d /\ staked d <= deposit e w (sl_config a) /\ run e cx ca w = Err TokenError.
Proof.
  set (w := at_end setup).
  exists denv, (cx [slasher] 0 None 0), (slash_accts_of ksol1 bob), 700, w, (cfg_of w kcfg), (s_del (sol_of w ksol1)),
    (Tok kmint kpda 0 None 0 None false), (CSlashSolStakerStake (slash_accts_of ksol1 bob) 700).
  split; [apply denv_ok|]. split; [apply at_end_reachable; vm_compute; reflexivity|].
  split; [apply ctx_ok_wf; vm_compute; reflexivity|]. split; [calc|].
  split; [split; [exists (hold_of w kvhr)|]; vm_compute; reflexivity|].
  split; [apply good_slash_case; [vm_compute; reflexivity|auto|reflexivity]|].
  split; [vm_compute; reflexivity|]. split; [calc|]. split; calc.
Qed.
Print Assumptions C09_slash_refuted.

(** ** C25: the keeper *)
(** When the recorded SOL stake is up to date, nobody but the stake authority gains. *)
Theorem C25_no_change_no_keeper e cx a w w' s vw k : env_ok e -> reachable e w ->
  run e cx (CHarvestSolStakerRewards a) w = Ok w' -> sol_at e w (hs_stake a) s -> c_view cx = Some vw ->
  vw_effective vw = s_lamports s -> vw_vote vw = vote (s_del s) -> k <> authority (s_del s) ->
  lam (get w' k) <= lam (get w k).
Proof.
  intros OK R RUN [_ SD] V E1 E2 NK. destruct (C24_staker_harvest_pays e cx a w w' vw OK R RUN V) as (s0 & [_ SD0] & P).
  assert (s0 = s) as -> by congruence. specialize (P E1 E2 k). rewrite (proj2 (N.eqb_neq _ _) NK) in P. lia.
Qed.
Print Assumptions C25_no_change_no_keeper.
Example C25_plain_case : let l := firstn 7 story in let l' := firstn 8 story in
  reachable denv (at_end l) /\ runs l' = true /\
  nth 7 story (Pay 0 0 0) = harvest_sol nat1 bob vote1 alice vote1 alice None (View vote1 bob 1000) /\
  s_lamports (sol_of (at_end l) ksol1) = 1000 /\ vote (s_del (sol_of (at_end l) ksol1)) = vote1 /\ carol <> bob.
Proof. split; [apply at_end_reachable; vm_compute; reflexivity|]. vm_compute. repeat split; discriminate. Qed.
(** When the validator delegated to has a stake account, or there is none, a
    synchronisation records what the view program reported, which is a change. *)
Theorem C25_participating_validator e cx a w w' s vw : env_ok e -> reachable e w ->
  run e cx (CHarvestSolStakerRewards a) w = Ok w' -> sol_at e w (hs_stake a) s -> c_view cx = Some vw ->
  vw_vote vw = 0 \/ own (get w (e_val e (vw_vote vw) (hs_config a))) = e_prog e ->
  exists s', sol_at e w' (hs_stake a) s' /\ s_lamports s' = vw_effective vw /\ vote (s_del s') = vw_vote vw.
Proof.
  intros OK R RUN [SO SD] V PV. apply run_ok in RUN as (_ & D & _). inversion D as [| | | | | | | | | |? HS| | | | |]; subst.
  pose proof (ev_own _ _ _ (evolves_harvested_sol _ _ _ _ _ HS)) as OW.
  assert (own (get w' (hs_stake a)) = e_prog e) as SO' by (rewrite OW; auto).
  destruct HS.
  - rewrite SD in Hs. injection Hs as <-. rewrite V in Hvw. injection Hvw as <-. destruct Hsame as [E1 E2].
    destruct (harvested_net _ _ _ _ _ _ _ _ _ H1) as (cc & d1 & h & rpt & sr & hr & RD & _ & _ & _ & _ & _ & S1 & _).
    rewrite SD in S1. cbn in S1. eexists. split; [split; [auto|exact S1]|]. cbn. auto.
  - rewrite SD in Hs. injection Hs as <-. rewrite V in Hvw. injection Hvw as <-.
    assert (cv = vw_vote vw /\ cs = vw_effective vw) as [-> ->].
    { assert (forall k, own (get w2 k) = own (get w k)) as O2.
      { intros k. rewrite <- (ev_own _ _ _ (evolves_harvest _ _ _ _ _ _ _ _ _ H1)).
        destruct H2 as [? ? ? RV|]; [apply (ev_own _ _ _ (evolves_revalidated _ _ _ _ _ _ _ _ _ RV))|now subst]. }
      destruct H3; [auto| |split; congruence]. exfalso. destruct PV as [Z|PV]; [contradiction|].
      rewrite Hk0, O2 in Ho. contradiction. }
    destruct H5. rewrite H4 in Hdat. specialize (Hdat (hs_stake a)). wsi Hdat. rewrite N.eqb_refl in Hdat.
    destruct (N.eqb_spec (hs_config a) (hs_stake a)) as [E|_]; [exfalso; rewrite E in Hc0; congruence|].
    cbn in Hdat. rewrite H4 in Hd. wsi Hd. rewrite N.eqb_refl in Hd. cbn in Hd. injection Hd as <-.
    eexists. split; [split; [auto|exact Hdat]|]. cbn. auto.
Qed.
Print Assumptions C25_participating_validator.
Example C25_sync_case : let l := firstn 10 story in let l' := firstn 11 story in
  reachable denv (at_end l) /\ runs l' = true /\
  nth 10 story (Pay 0 0 0) = harvest_sol nat1 bob vote1 alice vote2 dave (Some carol) (View vote2 bob 700) /\
  own (get (at_end l) (e_val denv vote2 kcfg)) = e_prog denv /\
  s_lamports (sol_of (at_end l') ksol1) = 700 /\ vote (s_del (sol_of (at_end l') ksol1)) = vote2.
Proof. split; [apply at_end_reachable; vm_compute; reflexivity|]. vm_compute. auto 10. Qed.
(** The expectation is false: delegated to a validator without a stake account,
    every call pays the keeper again and changes nothing that is recorded. *)
Definition vote3 : N := 992.
Definition off_sync : act := harvest_sol nat1 bob vote1 alice vote3 dave (Some carol) (View vote3 bob 700).
Definition keeper_script : list act := setup ++ [off_sync; harvest_holder (5 * 10 ^ 18)].
Theorem C25_keeper_refuted : exists e cx a w w' s s' kp,
  env_ok e /\ reachable e w /\ wf_ctx e cx /\ run e cx (CHarvestSolStakerRewards a) w = Ok w' /\
  hs_keeper a = Some kp /\ kp <> authority (s_del s) /\ sol_at e w (hs_stake a) s /\ sol_at e w' (hs_stake a) s' /\
  s_lamports s' = s_lamports s /\ vote (s_del s') = vote (s_del s) /\ effective (s_del s') = effective (s_del s) /\
  lam (get w kp) < lam (get w' kp).
Proof.
  set (w := at_end keeper_script). set (w' := at_end (keeper_script ++ [off_sync])).
  assert (runs (keeper_script ++ [off_sync]) = true) as RS by (vm_compute; reflexivity).
  pose proof (at_end_run keeper_script _ _ RS) as (WC & _ & RUN).
  eexists denv, _, _, w, w', (sol_of w ksol1), (sol_of w' ksol1), carol.
  split; [apply denv_ok|]. split; [apply at_end_reachable; vm_compute; reflexivity|].
  split; [exact WC|]. split; [exact RUN|]. split; [reflexivity|]. split; [calc|].
  split; [vm_compute; auto|]. split; [vm_compute; auto|]. repeat split; calc.
Qed.
Print Assumptions C25_keeper_refuted.
