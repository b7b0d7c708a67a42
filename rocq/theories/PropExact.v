(** Governance and initialisation instructions succeed exactly when their
    conditions hold; three further instructions that always go through when well
    formed and affordable. *)
From Verif Require Import Base Types Layout Instr Math External Processor Runtime History Spec SpecReward SpecLive SpecExact
  WorldLemmas Effects Handlers Evolve Sane Wf Totals Arith Nets Caps Stakers Deposits Inv Rewards Demo
  Live LiveTokens LiveStake LiveMore Exact PropLive.

Lemma steps_when e cx c w (P : Prop) : wf_ctx e cx -> wf_call c -> ((exists w', run e cx c w = Ok w') <-> P) ->
  (exists w', step e w (Do cx c) w') <-> P.
Proof.
  intros WC WA <-. split; intros [w' S]; exists w'; [|now constructor]. inversion S; auto.
Qed.
(** As [calcs], through the definitions of [SpecExact] as well. *)
Ltac parts := match goal with
  | |- _ /\ _ => split; parts
  | |- val_at _ _ _ _ => split; calc
  | |- config_at _ _ _ _ => split; calc
  | |- unused _ _ _ _ => unfold unused; parts
  | |- document_signed _ _ _ _ _ => unfold document_signed; parts
  | |- _ => calcs
  end.
Ltac here := split; [apply at_end_reachable; vm_compute; reflexivity|split; [apply ctx_ok_wf; vm_compute; reflexivity|]].

(** ** C51: exact conditions of success *)
Theorem C51_update_config e cx a f w : wf_ctx e cx -> wf_call (CUpdateConfig a f) -> writable cx (uc_config a) = true ->
  (exists w', step e w (Do cx (CUpdateConfig a f)) w') <-> exists c, can_update e cx w a f c.
Proof. intros WC WA W. now apply steps_when, update_exact. Qed.
Print Assumptions C51_update_config.
Example C51_update_config_case : let w := at_end setup in let x := cx [gov] 0 None 0 in
  reachable denv w /\ wf_ctx denv x /\
  can_update denv x w (UpdateConfigA kcfg gov) (MaxDeactivationBasisPoints 10000) (cfg_of w kcfg) /\
  ~ (exists c, can_update denv x w (UpdateConfigA kcfg gov) (MaxDeactivationBasisPoints 10001) c) /\
  ~ (exists c, can_update denv x w (UpdateConfigA kcfg alice) (CooldownTimeSeconds 5) c).
Proof.
  here. split; [|split].
  - split; [calcs|calcs|]. intros x [= <-]. calc.
  - intros [c [_ _ F]]. specialize (F _ eq_refl). vm_compute in F. congruence.
  - intros [c [_ (_ & _ & S) _]]. discriminate S.
Qed.

Theorem C51_set_authority e cx a t w : wf_ctx e cx -> writable cx (sa_account a) = true ->
  (exists w', step e w (Do cx (CSetAuthority a t)) w') <-> exists c, can_set_authority e cx w a t c.
Proof. intros WC W. apply steps_when; [auto|exact I|]. now apply set_authority_exact. Qed.
Print Assumptions C51_set_authority.
Example C51_set_authority_case : let w := at_end setup in let x := cx [gov; slasher] 0 None 0 in
  reachable denv w /\ wf_ctx denv x /\
  can_set_authority denv x w (SetAuthA kcfg slasher carol) AuthSlash (cfg_of w kcfg) /\
  ~ (exists c, can_set_authority denv x w (SetAuthA kcfg gov carol) AuthSlash c).
Proof.
  here. split; [split; calcs|]. intros [c [[_ D] (A & _)]].
  assert (c = cfg_of (at_end setup) kcfg) as -> by (unfold cfg_of; cbn [sa_account] in D; now rewrite D). revert A. calc.
Qed.

Theorem C51_sync_authority e cx a w : wf_ctx e cx -> writable cx (sy_stake a) = true ->
  (exists w', step e w (Do cx (CValidatorSyncAuthority a)) w') <-> can_sync_authority e w a.
Proof. intros WC W. apply steps_when; [auto|exact I|]. now apply sync_authority_exact. Qed.
Print Assumptions C51_sync_authority.
Example C51_sync_authority_case : let w := at_end (firstn 18 story) in let x := cx [] 0 None 0 in
  reachable denv w /\ wf_ctx denv x /\ can_sync_authority denv w (SyncAuthA kcfg kval1 vote1) /\
  authority (v_del (val_of w kval1)) = alice /\ dat (get w vote1) = DVote dave.
Proof.
  here. split; [|vm_compute; auto]. set (w := at_end (firstn 18 story)). split.
  - exists (cfg_of w kcfg). calcs.
  - split; [calc|]. exists (val_of w kval1). parts.
  - split; [calc|]. exists dave. calc.
Qed.

Theorem C51_init_config e cx a s au cd b sy du w : wf_ctx e cx -> wf_call (CInitializeConfig a s au cd b sy du) ->
  writable cx (ic_config a) = true -> writable cx (ic_vault_pda a) = true ->
  (exists w', step e w (Do cx (CInitializeConfig a s au cd b sy du)) w') <-> exists t, can_init_config e w a b t.
Proof. intros WC WA W1 W2. now apply steps_when, init_config_exact. Qed.
Print Assumptions C51_init_config.
Example C51_init_config_case : let w := at_end setup in
  reachable denv w /\ wf_ctx denv (cx [] 0 None 0) /\
  can_init_config denv w (InitConfigA kcfg2 kmint (e_vault denv kcfg2) kvtok2 (e_holder denv (e_vault denv kcfg2))) 10000
    (tok_of w kvtok2) /\
  ~ (exists t, can_init_config denv w (InitConfigA kcfg kmint kpda kvtok kvhr) 10000 t).
Proof.
  here. split.
  - split; try (calcs; fail).
    + split; [calc|]. split; [calc|]. exists (repeat 0 192). split; [calc|]. split; calc.
    + split; [calc|]. split; [calc|]. left. calc.
    + exists (mint_of (at_end setup) kmint). calc.
  - intros [t [(_ & _ & b & D & _) _ _ _ _ _]]. vm_compute in D. discriminate.
Qed.

Theorem C51_init_validator_stake e cx a w : wf_ctx e cx -> writable cx (iv_stake a) = true ->
  (exists w', step e w (Do cx (CInitializeValidatorStake a)) w') <-> exists c wd, can_init_val e w a c wd.
Proof. intros WC W. apply steps_when; [auto|exact I|]. now apply init_val_exact. Qed.
Print Assumptions C51_init_validator_stake.
Example C51_init_validator_stake_case : let w := at_end [init_config; init_val vote2 dave] in
  reachable denv w /\ wf_ctx denv (cx [] 0 None 0) /\
  can_init_val denv w (InitValA kcfg (e_duna denv alice docs) kval1 vote1) (cfg_of w kcfg) alice /\
  ~ (exists c wd, can_init_val denv w (InitValA kcfg (e_duna denv dave docs) kval2 vote2) c wd).
Proof.
  here. split.
  - split; parts.
  - intros (c & wd & [_ _ _ (_ & U & _)]). vm_compute in U. discriminate.
Qed.

Theorem C51_init_sol_staker_stake e cx a w : wf_ctx e cx -> writable cx (is_stake a) = true -> writable cx (is_val a) = true ->
  (exists w', step e w (Do cx (CInitializeSolStakerStake a)) w') <-> exists c vw v, can_init_sol e cx w a c vw v.
Proof. intros WC W1 W2. apply steps_when; [auto|exact I|]. now apply init_sol_exact. Qed.
Print Assumptions C51_init_sol_staker_stake.
Example C51_init_sol_staker_stake_case : let w := at_end setup in let vw := View vote2 bob 5000 in
  reachable denv w /\ wf_ctx denv (cx [] 0 (Some vw) 0) /\
  can_init_sol denv (cx [] 0 (Some vw) 0) w
    (InitSolA kcfg (e_duna denv bob docs) ksol2 (e_override denv bob kcfg) kval2 nat2 (e_view denv))
    (cfg_of w kcfg) vw (val_of w kval2).
Proof.
  here. split; try (parts; fail). split; [calc|]. left. calc.
Qed.

(** ** C52: the remaining rewards and override instructions go through *)
Theorem C52_harvest_validator_succeeds e cx a w v : env_ok e -> reachable e w -> wf_ctx e cx ->
  settled_chain e w (hv_config a) -> good_harvest_val e cx a w v ->
  exists w', step e w (Do cx (CHarvestValidatorRewards a)) w'.
Proof.
  intros OK R WC SC G. destruct (harvest_val_goes e cx a w v OK (inv_reachable _ _ OK R) SC G) as [w' RUN].
  exists w'. now constructor.
Qed.
Print Assumptions C52_harvest_validator_succeeds.
Example C52_harvest_validator_case : let w := at_end (firstn 9 story) in let x := cx [] 0 None 0 in
  reachable denv w /\ wf_ctx denv x /\ settled_chain denv w kcfg /\
  good_harvest_val denv x (HarvestValA kcfg kvhr kval1 alice) w (val_of w kval1) /\ pending denv w kcfg kval1 = 280277.
Proof.
  here. set (w := at_end (firstn 9 story)).
  split; [split; [exists (hold_of w kvhr)|]; vm_compute; reflexivity|]. split; [|vm_compute; reflexivity].
  split; try (parts; fail).
  - exists (cfg_of w kcfg). calcs.
  - one_claim kval1.
  - in_list.
Qed.

Theorem C52_override_succeeds e cx a n w c v : env_ok e -> reachable e w -> wf_ctx e cx -> n < 2 ^ 64 ->
  settled_chain e w (ov_config a) -> good_override e cx a n w c v ->
  exists w', step e w (Do cx (CValidatorOverride a n)) w'.
Proof.
  intros OK R WC NB SC G. destruct (override_goes e cx a n w c v OK (inv_reachable _ _ OK R) SC NB G) as [w' RUN].
  exists w'. now constructor.
Qed.
Print Assumptions C52_override_succeeds.
Example C52_override_case : let w := at_end (firstn 7 story) in let x := cx [gov] 0 None 0 in
  reachable denv w /\ wf_ctx denv x /\ settled_chain denv w kcfg /\
  good_override denv x (OverrideA kcfg gov kval1 alice kvhr) 5000 w (cfg_of w kcfg) (val_of w kval1) /\
  0 < pending denv w kcfg kval1 /\ v_total (val_of w kval1) = 1000.
Proof.
  here. set (w := at_end (firstn 7 story)).
  split; [split; [exists (hold_of w kvhr)|]; vm_compute; reflexivity|]. split; [|split; [calc|vm_compute; reflexivity]].
  split; try (parts; fail).
  - one_claim kval1.
  - in_list.
Qed.

Theorem C52_harvest_holder_succeeds e cx a w c : env_ok e -> reachable e w -> wf_ctx e cx ->
  settled_chain e w (hh_config a) -> good_harvest_holder e cx a w c ->
  exists w', step e w (Do cx (CHarvestHolderRewards a)) w'.
Proof.
  intros OK R WC SC G. destruct (harvest_holder_goes e cx a w c OK (inv_reachable _ _ OK R) SC G) as [w' RUN].
  exists w'. now constructor.
Qed.
Print Assumptions C52_harvest_holder_succeeds.
Example C52_harvest_holder_case : let w := at_end (firstn 8 story) in let x := cx [] 0 None (5 * 10 ^ 18) in
  reachable denv w /\ wf_ctx denv x /\ settled_chain denv w kcfg /\
  good_harvest_holder denv x (HarvestHolderA kcfg kpool kptok kvtok kvhr kpda kmint) w (cfg_of w kcfg) /\
  pool_owes denv w kcfg (5 * 10 ^ 18) = 12500.
Proof.
  here. set (w := at_end (firstn 8 story)).
  split; [split; [exists (hold_of w kvhr)|]; vm_compute; reflexivity|]. split; [|vm_compute; reflexivity].
  split; try (parts; fail).
  - split; [calc|]. split; [calc|]. exists (tok_of w kvtok). calcs.
  - exists (tok_of w kptok). calcs.
  - left. calc.
  - in_list.
Qed.
