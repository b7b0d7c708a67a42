(** Only the right accounts are accepted, and exact success conditions. *)
From Verif Require Import Base Types Layout Instr Math External Processor Runtime History Spec SpecReward SpecSolvency SpecLive SpecPanic SpecNeeds
  WorldLemmas Effects Handlers Evolve Sane Wf Totals Arith Nets Caps Stakers Deposits Inv Demo PropState PropReward PropSolvency PropLive
  Live LiveMore PropExact Panics PropPanic Needs.

(** ** C54: accounts are authentic *)
Theorem C54_accounts_authentic e cx c w w' : env_ok e -> reachable e w -> wf_call c -> run e cx c w = Ok w' -> needs e cx w c.
Proof. intros OK R WC RUN. apply run_ok in RUN as (H & _). eapply handler_needs; eauto using inv_reachable. Qed.
Print Assumptions C54_accounts_authentic.
Lemma runs_front l1 l2 : runs (l1 ++ l2) = true -> runs l1 = true.
Proof. unfold runs, after. rewrite play_app. destruct (play none_in world0 0 l1) as [[w n]|]; auto. Qed.
Definition kind (c : call) : N :=
  match c with
  | CInitializeConfig _ _ _ _ _ _ _ => 0 | CInitializeValidatorStake _ => 1 | CValidatorStakeTokens _ _ => 2
  | CHarvestHolderRewards _ => 3 | CHarvestValidatorRewards _ => 4 | CSlashValidatorStake _ _ => 5
  | CSetAuthority _ _ => 6 | CUpdateConfig _ _ => 7 | CInitializeSolStakerStake _ => 8 | CSolStakerStakeTokens _ _ => 9
  | CHarvestSolStakerRewards _ => 10 | CUnstakeTokens _ _ => 11 | CSlashSolStakerStake _ _ => 12
  | CSolStakerMoveTokens _ _ => 13 | CValidatorOverride _ _ => 14 | CValidatorSyncAuthority _ => 15
  end.
(* Every instruction of the story succeeds in a reachable state, and they are of
   twelve kinds; slashing a validator is added at the end. *)
Example C54_case : let l := story ++ [donate 60; slash_val vote1 dave 10] in
  (forall l1 x c l2, l = l1 ++ Call x c :: l2 ->
     reachable denv (at_end l1) /\ wf_call c /\ run denv x c (at_end l1) = Ok (at_end (l1 ++ [Call x c]))) /\
  length (nodup N.eq_dec (flat_map (fun a => match a with Call _ c => [kind c] | _ => [] end) l)) = 14%nat.
Proof.
  intros l. assert (runs l = true) as RS by (vm_compute; reflexivity). split; [|vm_compute; reflexivity].
  intros l1 x c l2 E. rewrite E in RS. assert (runs (l1 ++ [Call x c]) = true) as R1.
  { apply (runs_front _ l2). rewrite <- app_assoc. exact RS. }
  split; [apply at_end_reachable; eapply runs_front; eauto|]. destruct (at_end_run l1 x c R1) as (_ & WC & RUN). split; auto.
Qed.

(** ** C55: exact success conditions of the settling instructions *)
Lemma one_affordable e w ck k : pending e w ck k + e_rent e CONFIG_LEN <= lam (get w ck) -> affordable e w ck (fun x => x = k).
Proof.
  intros H. exists [k]. split; [apply NoDup_singleton|]. split; [intros x ->; left; auto|]. simpl. lia.
Qed.
Lemma settle_home e w ck k auth vhr d v : can_settle e w ck k auth vhr d -> dat (get w k) = DVal v -> k = e_val e (vote (v_del v)) ck.
Proof.
  intros (S & _) D. apply stake_of_some in S as (_ & _ & B). rewrite D in B. exact B.
Qed.
Lemma settle_home_sol e w ck k auth vhr d s : can_settle e w ck k auth vhr d -> dat (get w k) = DSol s -> k = e_sol e (s_native s) ck.
Proof.
  intros (S & _) D. apply stake_of_some in S as (_ & _ & B). rewrite D in B. exact B.
Qed.
Lemma settle_chain e w ck k auth vhr d : total_lamports w < 2 ^ 64 -> can_settle e w ck k auth vhr d -> settled_chain e w ck.
Proof. intros T (_ & _ & -> & H & _). split; auto. Qed.

(** When its accounts are writable and the config is not the authority of a stake,
    [HarvestValidatorRewards] succeeds exactly for the validator stakes of the
    config with their authority and claims the config can pay. *)
Theorem C55_harvest_validator e cx a w : env_ok e -> reachable e w -> wf_ctx e cx -> total_lamports w < 2 ^ 64 ->
  (forall k, In k [hv_config a; hv_stake a; hv_authority a] -> writable cx k = true) -> hv_authority a <> hv_config a ->
  (exists w', step e w (Do cx (CHarvestValidatorRewards a)) w') <->
  (exists c v, config_at e w (hv_config a) c /\ val_at e w (hv_stake a) v /\
     can_settle e w (hv_config a) (hv_stake a) (hv_authority a) (hv_vhr a) (v_del v)).
Proof.
  intros OK R WC T WR NA. split.
  - intros [w' ST]. inversion ST; subst. eapply (C54_accounts_authentic e cx (CHarvestValidatorRewards a)); eauto.
  - intros (c & v & CA & VA & ST). pose proof (settle_chain _ _ _ _ _ _ _ T ST) as SC.
    apply (C52_harvest_validator_succeeds e cx a w v); auto.
    pose proof (settle_home _ _ _ _ _ _ _ _ ST (proj2 VA)) as HK. destruct ST as (_ & AU & VH & _ & PAY).
    split; eauto using one_affordable.
Qed.
Print Assumptions C55_harvest_validator.

Theorem C55_override e cx a n w : env_ok e -> reachable e w -> wf_ctx e cx -> n < 2 ^ 64 -> total_lamports w < 2 ^ 64 ->
  (forall k, In k [ov_config a; ov_stake a; ov_stake_auth a] -> writable cx k = true) -> ov_stake_auth a <> ov_config a ->
  (exists w', step e w (Do cx (CValidatorOverride a n)) w') <-> (exists c v, needs_override e cx w a n c v).
Proof.
  intros OK R WC NB T WR NA. split.
  - intros [w' ST]. inversion ST; subst. eapply (C54_accounts_authentic e cx (CValidatorOverride a n)); eauto.
  - intros (c & v & []). destruct no_stake as [VA ST]. pose proof (settle_chain _ _ _ _ _ _ _ T ST) as SC.
    apply (C52_override_succeeds e cx a n w c v); auto.
    pose proof (settle_home _ _ _ _ _ _ _ _ ST (proj2 VA)) as HK. destruct ST as (_ & AU & VH & _ & PAY).
    split; eauto using one_affordable.
Qed.
Print Assumptions C55_override.

Theorem C55_move e cx a n w : env_ok e -> reachable e w -> wf_ctx e cx -> n < 2 ^ 64 -> total_lamports w < 2 ^ 64 ->
  (forall k, In k [mv_config a; mv_source a; mv_dest a; mv_authority a] -> writable cx k = true) -> mv_authority a <> mv_config a ->
  (exists w', step e w (Do cx (CSolStakerMoveTokens a n)) w') <->
  (exists s t, needs_move e cx w a n s t /\ affordable e w (mv_config a) (fun k => k = mv_source a \/ k = mv_dest a)).
Proof.
  intros OK R WC NB T WR NA. split.
  - intros [w' ST]. inversion ST as [? ? ? ? ? WL RUN|]; subst.
    destruct (C54_accounts_authentic e cx (CSolStakerMoveTokens a n) w w' OK R WL RUN) as (s & t & ND). exists s, t. split; [auto|].
    destruct (nm_config _ _ _ _ _ _ _ ND) as [c CA].
    apply (C53_success_affordable e cx (CSolStakerMoveTokens a n) w w' c); auto.
    cbn [settled_by config_of]. destruct ND. destruct nm_source as (_ & S1 & A1 & _), nm_dest as (_ & S2 & A2).
    intros k d [-> | ->] SK; congruence.
  - intros (s & t & [] & AF). destruct nm_source as [SA ST]. pose proof (settle_chain _ _ _ _ _ _ _ T ST) as SC.
    apply (C47_move_succeeds e cx a n w s t); auto.
    pose proof (settle_home_sol _ _ _ _ _ _ _ _ ST (proj2 SA)) as HK. destruct nm_dest as (DA & DS & AU2).
    apply stake_of_some in DS as (_ & _ & B). rewrite (proj2 DA) in B. destruct ST as (_ & AU & VH & _ & PAY).
    split; eauto.
Qed.
Print Assumptions C55_move.

(** Harvesting the vault's own rewards, while the pool is rent exempt. *)
Theorem C55_harvest_holder e cx a w : env_ok e -> reachable e w -> wf_ctx e cx -> total_lamports w < 2 ^ 64 ->
  (forall k, In k [hh_config a; hh_pool a; hh_vhr a; hh_vault_pda a] -> writable cx k = true) ->
  e_rent e 64 <= lam (get w (hh_pool a)) ->
  (exists w', step e w (Do cx (CHarvestHolderRewards a)) w') <-> (exists c, needs_harvest_holder e cx w a c).
Proof.
  intros OK R WC T WR PR. split.
  - intros [w' ST]. inversion ST; subst. eapply (C54_accounts_authentic e cx (CHarvestHolderRewards a)); eauto.
  - intros (c & []). destruct nk_vhr as (VH & h & DH). destruct nk_pool as (P1 & P2 & P3 & p & P4 & P5 & P6 & P7).
    apply (C52_harvest_holder_succeeds e cx a w c); auto; [split; auto; rewrite <- VH; eauto|].
    split; eauto. destruct nk_reward as [Q1 Q2]. split; [auto|].
    destruct (N.eq_dec (pool_owes e w (hh_config a) (c_pool_acc cx mod 2 ^ 128)) 0) as [->|NE]; [lia|auto].
Qed.
Print Assumptions C55_harvest_holder.

(** Cases: the hypotheses hold, and each instruction fails for a wrong account. *)
Example C55_harvest_validator_case : let w := at_end (firstn 9 story) in let x := cx [] 0 None 0 in
  reachable denv w /\ wf_ctx denv x /\ total_lamports w < 2 ^ 64 /\
  (forall k, In k [kcfg; kval1; alice; bob] -> writable x k = true) /\ alice <> kcfg /\ bob <> kcfg /\
  (exists w', step denv w (Do x (CHarvestValidatorRewards (HarvestValA kcfg kvhr kval1 alice))) w') /\
  run denv x (CHarvestValidatorRewards (HarvestValA kcfg kvhr kval1 bob)) w = Err (Stake InvalidAuthority).
Proof.
  destruct C52_harvest_validator_case as (R & WC & SC & G & _). cbv zeta. split; [exact R|]. split; [exact WC|].
  split; [apply SC|]. split; [in_list|]. do 2 (split; [discriminate|]).
  split; [apply (C52_harvest_validator_succeeds denv (cx [] 0 None 0) (HarvestValA kcfg kvhr kval1 alice) (at_end (firstn 9 story)) (val_of (at_end (firstn 9 story)) kval1)); auto using denv_ok|vm_compute; reflexivity].
Qed.
Example C55_override_case : let w := at_end (firstn 7 story) in let x := cx [gov] 0 None 0 in
  reachable denv w /\ wf_ctx denv x /\ total_lamports w < 2 ^ 64 /\
  (forall k, In k [kcfg; kval1; alice] -> writable x k = true) /\ alice <> kcfg /\
  (exists w', step denv w (Do x (CValidatorOverride (OverrideA kcfg gov kval1 alice kvhr) 5000)) w') /\
  run denv x (CValidatorOverride (OverrideA kcfg gov kval1 alice kvhr) (2 ^ 64 - 1)) w = Err ArithmeticOverflow.
Proof.
  destruct C52_override_case as (R & WC & SC & G & _). cbv zeta. split; [exact R|]. split; [exact WC|].
  split; [apply SC|]. split; [in_list|]. split; [discriminate|].
  split; [apply (C52_override_succeeds denv (cx [gov] 0 None 0) (OverrideA kcfg gov kval1 alice kvhr) 5000 (at_end (firstn 7 story)) (cfg_of (at_end (firstn 7 story)) kcfg) (val_of (at_end (firstn 7 story)) kval1)); auto using denv_ok; reflexivity|vm_compute; reflexivity].
Qed.
Example C55_move_case : let w := at_end (firstn 13 story) in let x := cx [bob] 0 None 0 in
  reachable denv w /\ wf_ctx denv x /\ total_lamports w < 2 ^ 64 /\
  (forall k, In k [kcfg; ksol1; ksol2; bob] -> writable x k = true) /\ bob <> kcfg /\
  (exists w', step denv w (Do x (CSolStakerMoveTokens (MoveA kcfg kvhr bob ksol1 ksol2) 2000)) w') /\
  run denv x (CSolStakerMoveTokens (MoveA kcfg kvhr bob ksol1 ksol2) 2001) w = Err ArithmeticOverflow.
Proof.
  destruct C47_case as (R & WC & SC & G & _). cbv zeta. split; [exact R|]. split; [exact WC|].
  split; [apply SC|]. split; [in_list|]. split; [discriminate|].
  split; [apply (C47_move_succeeds denv (cx [bob] 0 None 0) (MoveA kcfg kvhr bob ksol1 ksol2) 2000 (at_end (firstn 13 story)) (sol_of (at_end (firstn 13 story)) ksol1) (sol_of (at_end (firstn 13 story)) ksol2)); auto using denv_ok; reflexivity|vm_compute; reflexivity].
Qed.
Example C55_harvest_holder_case : let w := at_end (firstn 8 story) in let x := cx [] 0 None (5 * 10 ^ 18) in
  reachable denv w /\ wf_ctx denv x /\ total_lamports w < 2 ^ 64 /\
  (forall k, In k [kcfg; kpool; kvhr; kpda] -> writable x k = true) /\ e_rent denv 64 <= lam (get w kpool) /\
  (exists w', step denv w (Do x (CHarvestHolderRewards (HarvestHolderA kcfg kpool kptok kvtok kvhr kpda kmint))) w') /\
  run denv x (CHarvestHolderRewards (HarvestHolderA kcfg kpool kptok btok kvhr kpda kmint)) w = Err (Stake IncorrectVaultAccount).
Proof.
  destruct C52_harvest_holder_case as (R & WC & SC & G & _). cbv zeta. split; [exact R|]. split; [exact WC|].
  split; [apply SC|]. split; [in_list|]. split; [calc|].
  split; [apply (C52_harvest_holder_succeeds denv (cx [] 0 None (5 * 10 ^ 18)) (HarvestHolderA kcfg kpool kptok kvtok kvhr kpda kmint) (at_end (firstn 8 story)) (cfg_of (at_end (firstn 8 story)) kcfg)); auto using denv_ok|vm_compute; reflexivity].
Qed.
