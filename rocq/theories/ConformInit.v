(** [initialize_config.rs], [initialize_validator_stake.rs],
    [initialize_sol_staker_stake.rs], [duna_document.rs], [set_authority.rs],
    [update_config.rs], [validator_override_staked_lamports.rs],
    [validator_sync_authority.rs] and [harvest_validator_rewards.rs] of
    [/repo/clients/rust/tests], see [Conform.v]. *)
From stdpp Require Import gmap.
From Verif Require Import Base Types Layout Instr Math External Processor Runtime Declared Client Tx Demo Conform.

(** ** initialize_config.rs *)
Example initialize_config_with_mint_and_token :
  holds (new_config conf ∅) (fun w =>
    size w conf = CONFIG_LEN /\ cfg_acc (cfg w conf) = 0 /\ cfg_effective (cfg w conf) = 0).
Proof. checked. Qed.
Example fail_initialize_config_with_wrong_vault_pda :
  tx at_start (CInitializeConfig (InitConfigA conf (the_mint conf) (vault_pda someone) (the_vault conf) (holder_rewards conf))
      someone someone 1 500 1000000 duna)
    (let w := init_accounts conf ∅ in
     let w := put w (vault_pda someone) (Acct (rent 0) 0 (DRaw [])) in
     put w (the_vault conf) (empty_tokens (the_mint conf) (vault_pda someone)))
  = Err (Stake IncorrectVaultPdaAccount).
Proof. checked. Qed.
Definition with_vault (f : token -> token) (w : world) : world :=
  edit w (the_vault conf) (fun d => match d with DToken t => DToken (f t) | d => d end).
Definition init_here : call := init_config conf (authority conf) (authority conf) 1 500 1000000.
Example fail_initialize_config_with_non_empty_token :
  tx at_start init_here
    (with_vault (fun t => Tok (t_mint t) (t_owner t) 1 None 0 None false) (init_accounts conf ∅))
  = Err (Stake AmountGreaterThanZero).
Proof. checked. Qed.
Example fail_initialize_config_with_unitialized_mint :
  tx at_start (CInitializeConfig (InitConfigA conf another (vault_pda conf) (the_vault conf) (holder_rewards conf))
      (authority conf) (authority conf) 1 500 1000000 duna)
    (put (init_accounts conf ∅) another (Acct (rent 82) (e_token denv) (DRaw (repeat 0 82))))
  = Err UninitializedAccount.
Proof. checked. Qed.
Example fail_initialize_config_with_wrong_account_length :
  tx at_start init_here
    (put (init_accounts conf ∅) conf
      (Acct (rent (CONFIG_LEN + 100)) (e_prog denv) (DRaw (repeat 0 (N.to_nat (CONFIG_LEN + 100))))))
  = Err (Stake InvalidAccountDataLength).
Proof. checked. Qed.
Example fail_initialize_config_with_initialized_account :
  (let* w := new_config conf ∅ in
   tx at_start init_here w) = Err AccountAlreadyInitialized.
Proof. checked. Qed.
Example fail_initialize_config_with_token_delegate :
  tx at_start init_here
    (with_vault (fun t => Tok (t_mint t) (t_owner t) 0 (Some (the_mint conf)) 1 None false) (init_accounts conf ∅))
  = Err (Stake DelegateNotNone).
Proof. checked. Qed.
Example fail_initialize_config_with_token_close_authority :
  tx at_start init_here
    (with_vault (fun t => Tok (t_mint t) (t_owner t) 0 None 0 (Some (the_mint conf)) false) (init_accounts conf ∅))
  = Err (Stake CloseAuthorityNotNone).
Proof. checked. Qed.
Example fail_initialize_config_with_invalid_max_deactivation_basis_points :
  config_with 1 20000 1000000 conf ∅ = Err InvalidArgument.
Proof. checked. Qed.

(** ** initialize_validator_stake.rs *)
Example initialize_stake_with_validator_vote :
  holds (let* w := new_config conf ∅ in new_validator conf voteA authA w) (fun w =>
    let k := val_stake voteA conf in let d := v_del (val w k) in
    size w k = VAL_LEN /\ vote d = voteA /\ Types.authority d = authA /\ staked d = 0 /\ effective d = 0 /\
    last_holder d = 0 /\ last_stake d = 0).
Proof. checked. Qed.
Example fail_initialize_stake_with_initialized_account :
  (let* w := new_config conf ∅ in let* w := new_validator conf voteA authA w in
   tx at_start (init_validator conf voteA authA) w) = Err AccountAlreadyInitialized.
Proof. checked. Qed.
Example fail_initialize_stake_with_invalid_derivation :
  (let* w := new_config conf ∅ in
   tx at_start (CInitializeValidatorStake (InitValA conf (document authA) (val_stake someone conf) voteA))
     (sign_duna (put w voteA (vote_account (e_votep denv) authA)) authA)) = Err InvalidSeeds.
Proof. checked. Qed.
Example fail_initialize_stake_with_invalid_vote_account :
  (let* w := new_config conf ∅ in
   tx at_start (CInitializeValidatorStake (InitValA conf (document authA) (val_stake someone conf) voteA))
     (sign_duna (put w voteA (vote_account 0 authA)) authA)) = Err InvalidAccountOwner.
Proof. checked. Qed.
Example fail_initialize_stake_with_uninitialized_config_account :
  tx at_start (CInitializeValidatorStake (InitValA conf (document authA) (val_stake someone conf) voteA))
    (sign_duna (put (init_accounts conf ∅) voteA (vote_account 0 authA)) authA) = Err UninitializedAccount.
Proof. checked. Qed.

(** ** initialize_sol_staker_stake.rs *)
Definition sees_it : clock := seeing (delegated voteA sol_auth1 1000000000).
Definition funded (w : world) : world := fund (sign_duna w sol_auth1) (sol_stake native1 conf) (rent SOL_LEN).
Definition init_it : call := init_sol conf native1 sol_auth1 (val_stake voteA conf) (e_view denv).
Example initialize_sol_staker_stake_base :
  holds (let* w := ready in tx sees_it init_it (funded w)) (fun w =>
    let k := sol_stake native1 conf in let d := s_del (sol w k) in
    size w k = SOL_LEN /\ vote d = voteA /\ Types.authority d = sol_auth1 /\ staked d = 0 /\ effective d = 0 /\
    last_holder d = 0 /\ last_stake d = 0 /\ s_native (sol w k) = native1 /\ s_lamports (sol w k) = 1000000000 /\
    v_total (val w (val_stake voteA conf)) = 1000000000).
Proof. checked. Qed.
Example fail_initialize_sol_staker_stake_with_initialized_account :
  (let* w := ready in let* w := tx sees_it init_it (funded w) in
   tx sees_it (CInitializeSolStakerStake (InitSolA conf (document sol_auth1) (sol_stake native1 conf)
     (e_override denv authA conf) (val_stake voteA conf) native1 (e_view denv))) w) = Err AccountAlreadyInitialized.
Proof. checked. Qed.
Example fail_initialize_sol_staker_stake_with_invalid_derivation :
  (let* w := ready in
   tx sees_it (CInitializeSolStakerStake (InitSolA conf (document sol_auth1) (sol_stake someone conf)
     (e_override denv sol_auth1 conf) (val_stake voteA conf) native1 (e_view denv)))
     (fund (sign_duna w sol_auth1) (sol_stake someone conf) (rent SOL_LEN))) = Err InvalidSeeds.
Proof. checked. Qed.
(** The test sees [BorshIoError], the stake view program's error; the model has one error
    for every failure of that program. *)
Example fail_initialize_stake_with_invalid_stake_state :
  (let* w := ready in
   tx at_start (CInitializeSolStakerStake (InitSolA conf (document someone) (sol_stake native1 conf)
     (e_override denv another conf) (val_stake voteA conf) native1 (e_view denv)))
     (fund (sign_duna w someone) (sol_stake native1 conf) (rent SOL_LEN))) = Err ViewError.
Proof. checked. Qed.
Example fail_initialize_sol_staker_stake_with_uninitialized_config :
  (let* w := ready in
   tx sees_it init_it (funded (put w conf (junk CONFIG_LEN)))) = Err UninitializedAccount.
Proof. checked. Qed.
Example fail_initialize_sol_staker_stake_with_invalid_sol_stake_view_program :
  (let* w := ready in
   tx sees_it (init_sol conf native1 sol_auth1 (val_stake voteA conf) someone) (funded w)) = Err IncorrectProgramId.
Proof. checked. Qed.

(** ** duna_document.rs *)
Example fail_initialize_validator_stake_unintialized_duna_pda :
  (let* w := new_config conf ∅ in
   let w := put w voteA (vote_account (e_votep denv) authA) in
   let w := put w (document authA) (Acct 100000000 48 (DRaw [0])) in
   tx at_start (init_validator conf voteA authA) (fund w (val_stake voteA conf) (rent VAL_LEN)))
  = Err (Stake DunaDocumentNotInitialized).
Proof. checked. Qed.
Example fail_initialize_sol_staker_unintialized_duna_pda :
  (let* w := ready in
   tx sees_it init_it (put (funded w) (document sol_auth1) (Acct 100000000 48 (DRaw [0]))))
  = Err (Stake DunaDocumentNotInitialized).
Proof. checked. Qed.

(** ** set_authority.rs *)
Definition set_auth (who next : pubkey) (t : authority_type) : call := CSetAuthority (SetAuthA conf who next) t.
Example set_config_authority_on_config :
  holds (let* w := new_config conf ∅ in tx at_start (set_auth (authority conf) someone AuthConfig) w)
    (fun w => cfg_authority (cfg w conf) = someone).
Proof. checked. Qed.
Example set_slash_authority_on_config :
  holds (let* w := new_config conf ∅ in tx at_start (set_auth (authority conf) someone AuthSlash) w)
    (fun w => cfg_slash (cfg w conf) = someone).
Proof. checked. Qed.
Example fail_set_config_authority_with_wrong_authority :
  (let* w := new_config conf ∅ in tx at_start (set_auth another someone AuthConfig) w) = Err (Stake InvalidAuthority).
Proof. checked. Qed.
Example fail_set_slash_authority_with_wrong_authority :
  (let* w := new_config conf ∅ in tx at_start (set_auth another someone AuthSlash) w) = Err (Stake InvalidAuthority).
Proof. checked. Qed.
Definition no_authority : result world :=
  tx at_start (init_config conf 0 (authority conf) 1 500 1000000) (init_accounts conf ∅).
Definition no_slash : result world :=
  tx at_start (init_config conf (authority conf) 0 1 500 1000000) (init_accounts conf ∅).
Example fail_set_config_authority_when_authority_none :
  holds no_authority (fun w => cfg_authority (cfg w conf) = 0) /\
  (let* w := no_authority in tx at_start (set_auth (authority conf) someone AuthConfig) w) = Err (Stake AuthorityNotSet).
Proof. checked. Qed.
Example fail_set_slash_authority_when_authority_none :
  holds no_slash (fun w => cfg_slash (cfg w conf) = 0) /\
  (let* w := no_slash in tx at_start (set_auth (authority conf) someone AuthSlash) w) = Err (Stake AuthorityNotSet).
Proof. checked. Qed.

(** ** update_config.rs *)
Definition update (who : pubkey) (f : config_field) : call := CUpdateConfig (UpdateConfigA conf who) f.
Example update_cooldown_time_config :
  holds (let* w := new_config conf ∅ in tx at_start (update (authority conf) (CooldownTimeSeconds 10)) w)
    (fun w => cfg_cooldown (cfg w conf) = 10 /\ cfg_bps (cfg w conf) = 500).
Proof. checked. Qed.
Example update_max_deactivation_basis_points_config :
  holds (let* w := new_config conf ∅ in tx at_start (update (authority conf) (MaxDeactivationBasisPoints 1000)) w)
    (fun w => cfg_cooldown (cfg w conf) = 1 /\ cfg_bps (cfg w conf) = 1000).
Proof. checked. Qed.
Example update_sync_rewards_lamports :
  holds (new_config conf ∅) (fun w => cfg_sync (cfg w conf) = 1000000) /\
  holds (let* w := new_config conf ∅ in tx at_start (update (authority conf) (SyncRewardsLamports 200000000)) w)
    (fun w => cfg_cooldown (cfg w conf) = 1 /\ cfg_bps (cfg w conf) = 500 /\ cfg_sync (cfg w conf) = 200000000).
Proof. checked. Qed.
Example fail_update_max_deactivation_basis_points_config_with_invalid_value :
  (let* w := new_config conf ∅ in tx at_start (update (authority conf) (MaxDeactivationBasisPoints 20000)) w)
  = Err InvalidArgument.
Proof. checked. Qed.
Example fail_update_config_with_wrong_authority :
  (let* w := new_config conf ∅ in tx at_start (update another (CooldownTimeSeconds 10)) w) = Err (Stake InvalidAuthority).
Proof. checked. Qed.
Example fail_update_config_non_existing :
  tx at_start (update (authority conf) (CooldownTimeSeconds 10)) ∅ = Err InvalidAccountOwner.
Proof. checked. Qed.
Example fail_update_with_uninitialized_config :
  tx at_start (update (authority conf) (CooldownTimeSeconds 10)) (init_accounts conf ∅) = Err UninitializedAccount.
Proof. checked. Qed.
Example fail_update_config_with_no_authority_set :
  (let* w := no_authority in tx at_start (update (authority conf) (CooldownTimeSeconds 10)) w) = Err (Stake AuthorityNotSet).
Proof. checked. Qed.

(** ** validator_override_staked_lamports.rs *)
Definition set_v_staked (n : N) (v : vstake) : vstake := set_v_del v (set_staked (v_del v) n).
Definition two_staked : result world :=
  let* w := ready in Ok (edit_val w (val_stake voteA conf) (set_v_staked 2000000000)).
Definition override (c who k : pubkey) : call :=
  CValidatorOverride (OverrideA c who k authA (holder_rewards conf)) 10000000000.
Example validator_override_staked_lamports_ok :
  holds two_staked (fun w => let d := v_del (val w (val_stake voteA conf)) in staked d = 2000000000 /\ effective d = 0) /\
  holds (let* w := two_staked in tx at_start (override conf (authority conf) (val_stake voteA conf)) w) (fun w =>
    let v := val w (val_stake voteA conf) in
    v_total v = 0 /\ v_min v = 10000000000 /\ staked (v_del v) = 2000000000 /\ effective (v_del v) = 2000000000).
Proof. checked. Qed.
Example validator_override_staked_lamports_err_config :
  (let* w := two_staked in tx at_start (override someone (authority conf) (val_stake voteA conf)) w) = Err InvalidAccountOwner.
Proof. checked. Qed.
Example validator_override_staked_lamports_err_config_authority :
  (let* w := two_staked in tx at_start (override conf someone (val_stake voteA conf)) w) = Err (Stake InvalidAuthority).
Proof. checked. Qed.
Example validator_override_staked_lamports_err_validator_stake_owner :
  (let* w := two_staked in tx at_start (override conf (authority conf) someone) w) = Err InvalidAccountOwner.
Proof. checked. Qed.

(** ** validator_sync_authority.rs *)
Definition new_withdrawer : result world :=
  let* w := ready in Ok (edit w voteA (fun _ => DVote someone)).
Definition sync (c k v : pubkey) : call := CValidatorSyncAuthority (SyncAuthA c k v).
Example update_validator_authority_ok :
  holds (let* w := new_withdrawer in tx at_start (sync conf (val_stake voteA conf) voteA) w)
    (fun w => Types.authority (v_del (val w (val_stake voteA conf))) = someone).
Proof. checked. Qed.
Example update_validator_authority_err_invalid_config :
  (let* w := new_withdrawer in tx at_start (sync another (val_stake voteA conf) voteA) w) = Err InvalidAccountOwner.
Proof. checked. Qed.
Example update_validator_authority_err_vote_mismatch :
  (let* w := new_withdrawer in let* w := new_validator conf voteB authB w in
   tx at_start (sync conf (val_stake voteA conf) voteB) w) = Err InvalidSeeds.
Proof. checked. Qed.
Example update_validator_authority_err_stake_mismatch :
  (let* w := new_withdrawer in let* w := new_validator conf voteB authB w in
   tx at_start (sync conf (val_stake voteB conf) voteA) w) = Err InvalidSeeds.
Proof. checked. Qed.

(** ** harvest_validator_rewards.rs *)
Definition harvest_v (c vhr k who : pubkey) : call := CHarvestValidatorRewards (HarvestValA c vhr k who).
Example harvest_validator_rewards :
  holds (let* w := ready in
         tx at_start (harvest_v conf (holder_rewards conf) stakeA authA)
           (config_at 130 (per_token 26 130) 26 (put (val_at stakeA 65 65 50 0 w) authA wallet)))
    (fun w => lamports w authA = 100000000 + 13 /\ last_stake (v_del (val w stakeA)) = 200000000000000000).
Proof. checked. Qed.
Example harvest_validator_rewards_wrapped :
  holds (let* w := ready in
         tx at_start (harvest_v conf (holder_rewards conf) stakeA authA)
           (config_at 130 (per_token 26 130) 26 (put (val_at stakeA 65 65 50 (U128 - 1) w) authA wallet)))
    (fun w => lamports w authA = 100000000 + 13 /\ last_stake (v_del (val w stakeA)) = 200000000000000000).
Proof. checked. Qed.
Example harvest_validator_rewards_with_no_rewards_available :
  holds (let* w := ready in
         tx at_start (harvest_v conf (holder_rewards conf) stakeA authA)
           (config_at 100 0 0 (put (val_at stakeA 50 50 50 0 w) authA wallet)))
    (fun w => lamports w authA = 100000000).
Proof. checked. Qed.
Example harvest_validator_rewards_after_harvesting :
  holds (let* w := ready in
         tx at_start (harvest_v conf (holder_rewards conf) stakeA authA)
           (config_at 100 (per_token 4000000000 100) 2000000000
              (put (val_at stakeA 50 50 50 (per_token 4000000000 100) w) authA wallet)))
    (fun w => lamports w authA = 100000000 /\ lamports w conf = 2000000000 + rent CONFIG_LEN).
Proof. checked. Qed.
Definition rich : result world :=
  let* w := ready in Ok (config_at 100 (per_token 4000000000 100) 4000000000 (val_at stakeA 50 50 50 0 w)).
Example fail_harvest_validator_rewards_with_wrong_authority :
  (let* w := rich in tx at_start (harvest_v conf (holder_rewards conf) stakeA someone) w) = Err (Stake InvalidAuthority).
Proof. checked. Qed.
Example fail_harvest_validator_rewards_with_uninitialized_config_account :
  (let* w := ready in
   tx at_start (harvest_v conf (holder_rewards conf) stakeA authA) (put (put w conf (junk CONFIG_LEN)) authA wallet))
  = Err UninitializedAccount.
Proof. checked. Qed.
Example fail_harvest_validator_rewards_with_uninitialized_stake_account :
  (let* w := new_config conf ∅ in
   tx at_start (harvest_v conf (holder_rewards conf) (val_stake someone conf) another)
     (put (put w (val_stake someone conf) (junk VAL_LEN)) another wallet)) = Err UninitializedAccount.
Proof. checked. Qed.
Example fail_harvest_validator_rewards_with_wrong_config_account :
  (let* w := rich in let* w := new_config conf2 w in
   tx at_start (harvest_v conf2 (holder_rewards conf) stakeA authA) w) = Err InvalidSeeds.
Proof. checked. Qed.
Example fail_harvest_validator_rewards_with_wrong_holder_rewards :
  (let* w := rich in
   tx at_start (harvest_v conf (e_holder denv someone) stakeA authA)
     (put w (e_holder denv someone) (Acct (rent 32) (e_rewards denv) (DHolder (Hold 0 0))))) = Err InvalidSeeds.
Proof. checked. Qed.
