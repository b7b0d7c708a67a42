(** [inactivate_validator_stake.rs], [inactivate_sol_staker_stake.rs] and
    [harvest_holder_rewards.rs] of [/repo/clients/rust/tests], see [Conform.v]. *)
From stdpp Require Import gmap.
From Verif Require Import Base Types Layout Instr Math External Processor Runtime Declared Client Tx Demo Conform
  ConformStake.

(** The stake's authority has a token account of its own, which it stakes from and
    withdraws to. *)
Notation purse := 1216.
Definition purse_of (who n : N) (w : world) : world :=
  put w purse (Acct (rent 165) (e_token denv) (DToken (Tok (the_mint conf) who n None 0 None false))).
Definition from_purse (k who : pubkey) : stake_accts :=
  StakeA conf (the_pool conf) (pool_tokens conf) k who purse who (the_mint conf) (vault_pda conf) (the_vault conf)
    (holder_rewards conf) (e_token denv).
(** [UnstakeTokens] with the config [c] and the other accounts of the config [c']. *)
Definition unstake_in (c c' k who n : N) : call :=
  CUnstakeTokens (UnstakeA c (the_pool c') (pool_tokens c') k who (the_vault c') (vault_pda c') (holder_rewards c')
    (the_mint c') purse (e_token denv)) n.

(** ** inactivate_validator_stake.rs *)
(** [setup_fixture]: 100 tokens staked; then one SOL behind the validator, and the cooldown. *)
Definition staked_v (cool : N) : result world :=
  let* w := ready in
  let* w := tx at_start (CValidatorStakeTokens (from_purse stakeA authA) 100) (purse_of authA 100 w) in
  Ok (edit_val w stakeA (fun v => set_v_total (set_v_del v (set_cooldown (v_del v) cool)) 1000000000)).
Example inactivate_validator_stake :
  holds (let* w := staked_v 0 in tx at_start (unstake_in conf conf stakeA authA 5) w)
    (fun w => let d := v_del (val w stakeA) in
       staked d = 95 /\ effective d = 95 /\ cooldown d = now at_start + 1 /\ tokens w purse = 5 /\
       cfg_effective (cfg w conf) = 95).
Proof. checked. Qed.
Example fail_inactivate_validator_stake_with_cooldown :
  (let* w := staked_v (now at_start + 1) in tx at_start (unstake_in conf conf stakeA authA 50) w)
  = Err (Stake ActiveUnstakeCooldown).
Proof. checked. Qed.
Example fail_inactivate_validator_stake_with_wrong_config_for_vault :
  (let* w := staked_v 0 in let* w := new_config conf2 w in tx at_start (unstake_in conf2 conf stakeA authA 50) w)
  = Err (Stake IncorrectVaultAccount).
Proof. checked. Qed.
Example fail_inactivate_validator_stake_with_wrong_config_for_stake :
  (let* w := staked_v 0 in let* w := new_config conf2 w in tx at_start (unstake_in conf2 conf2 stakeA authA 50) w)
  = Err InvalidSeeds.
Proof. checked. Qed.
Example fail_inactivate_validator_stake_with_uninitialized_stake_account :
  (let* w := staked_v 0 in tx at_start (unstake_in conf conf stakeA authA 50) (put w stakeA (junk VAL_LEN)))
  = Err UninitializedAccount.
Proof. checked. Qed.
Example fail_inactivate_validator_stake_with_active_cooldown :
  (let* w := staked_v (now at_start + 1) in tx at_start (unstake_in conf conf stakeA authA 50) w)
  = Err (Stake ActiveUnstakeCooldown).
Proof. checked. Qed.
Example fail_validator_stake_deactivate_stake_with_amount_greater_than_stake_amount :
  (let* w := staked_v 0 in tx at_start (unstake_in conf conf stakeA authA 150) w)
  = Err (Stake InsufficientStakeAmount).
Proof. checked. Qed.
Example fail_validator_stake_deactivate_stake_with_maximum_deactivation_amount_exceeded :
  (let* w := staked_v 0 in tx at_start (unstake_in conf conf stakeA authA 100) w)
  = Err (Stake MaximumDeactivationAmountExceeded).
Proof. checked. Qed.

(** ** inactivate_sol_staker_stake.rs *)
Definition one_sol : N := 1000000000.
Definition with_sol_staker : result world :=
  let* w := ready in new_sol_staker conf native1 voteA sol_auth1 one_sol w.
Definition staked_s (cool : N) : result world :=
  let* w := with_sol_staker in
  let* w := tx at_start (CSolStakerStakeTokens (from_purse stake1 sol_auth1) 100) (purse_of sol_auth1 100 w) in
  Ok (edit_sol w stake1 (fun s => set_s_del s (set_cooldown (s_del s) cool))).
Example inactivate_sol_staker_stake_base :
  holds (let* w := staked_s 0 in tx at_start (unstake_in conf conf stake1 sol_auth1 5) w)
    (fun w => amounts w stake1 = (95, 95, now at_start + 1) /\ tokens w purse = 5 /\ cfg_effective (cfg w conf) = 95).
Proof. checked. Qed.
Example fail_inactivate_sol_staker_stake_with_wrong_config_for_vault :
  (let* w := staked_s 0 in let* w := new_config conf2 w in tx at_start (unstake_in conf2 conf stake1 sol_auth1 5) w)
  = Err (Stake IncorrectVaultAccount).
Proof. checked. Qed.
Example fail_inactivate_sol_staker_stake_with_wrong_config_for_stake :
  (let* w := staked_s 0 in let* w := new_config conf2 w in tx at_start (unstake_in conf2 conf2 stake1 sol_auth1 5) w)
  = Err InvalidSeeds.
Proof. checked. Qed.
Example fail_inactivate_sol_stake_stake_with_uninitialized_stake_account :
  (let* w := staked_s 0 in tx at_start (unstake_in conf conf stake1 sol_auth1 5) (put w stake1 (junk SOL_LEN)))
  = Err UninitializedAccount.
Proof. checked. Qed.
Example fail_inactivate_sol_staker_stake_with_active_cooldown :
  (let* w := staked_s (now at_start + 1) in tx at_start (unstake_in conf conf stake1 sol_auth1 5) w)
  = Err (Stake ActiveUnstakeCooldown).
Proof. checked. Qed.

(** ** harvest_holder_rewards.rs *)
(** A transaction of several instructions. *)
Fixpoint send_all (k : clock) (l : list call) (w : world) : result world :=
  match l with
  | [] => Ok w
  | c :: l => let* w := send_as k (client_metas ids c []) (client_data c) w in send_all k l w
  end.
Definition txs (k : clock) (l : list call) (w : world) : result world := close_tx w (send_all k l w).

(** [setup]: one validator, one SOL staker of one SOL, 100 tokens for each of the two. *)
Definition fixture : result world :=
  let* w := with_sol_staker in Ok (holding 100 (purse_of authA 100 w)).
(** [stake_validator] and [stake_sol_staker]. *)
Definition stake_validator (n : N) (w : world) : result world :=
  let* w := tx at_start (CValidatorStakeTokens (from_purse stakeA authA) n) w in
  Ok (edit_val w stakeA (fun v => set_v_total v one_sol)).
Definition stake_sol_staker (n : N) (w : world) : result world :=
  tx at_start (CSolStakerStakeTokens
    (StakeA conf (the_pool conf) (pool_tokens conf) stake1 sol_auth1 owner_tokens owner (the_mint conf)
       (vault_pda conf) (the_vault conf) (holder_rewards conf) (e_token denv)) n) w.
Definition both_stake (n m : N) : result world :=
  let* w := fixture in let* w := stake_validator n w in stake_sol_staker m w.
(** [set_pool_rewards] gives lamports to the pool; the rewards program then spreads them
    over the pool's tokens, which is the rate [paid] shows it at. *)
Definition paid (rewards over : N) : clock :=
  Clock 1000 (Some (delegated voteA sol_auth1 one_sol)) (per_token rewards over).
Definition give_pool (rewards : N) (w : world) : world := fund w (the_pool conf) rewards.
Definition holder_harvest (c v vhr vpda : pubkey) : call :=
  CHarvestHolderRewards (HarvestHolderA c (the_pool conf) (pool_tokens conf) v vhr vpda (the_mint conf)).
Definition hh : call := holder_harvest conf (the_vault conf) (holder_rewards conf) (vault_pda conf).
Definition hv (who : pubkey) : call :=
  CHarvestValidatorRewards (HarvestValA conf (holder_rewards conf) stakeA who).
Definition hs (who : pubkey) : call :=
  CHarvestSolStakerRewards (HarvestSolA (e_view denv) conf (holder_rewards conf) stake1 who native1 stakeA authA
    stakeA authA None).
Definition seen (d : delegation) : N := last_holder d.
Definition set_seen (w : world) (x : N) : world :=
  edit_val w stakeA (fun v => set_v_del v (set_lasts (v_del v) x (last_stake (v_del v)))).
Definition full : N := 340282366920938463463374607431768211455.

Example validator_stake_harvest_holder_rewards :
  holds (let* w := both_stake 100 100 in
         let* w := tx (paid 200000000000 200) hh (give_pool 200000000000 w) in
         tx (paid 200000000000 200) (hv authA) w)
    (fun w => lamports w authA = 100000000000 /\ lamports w conf = 100000000000 + rent CONFIG_LEN /\
       seen (v_del (val w stakeA)) = 1000000000 * SCALE /\ lamports w (vault_pda conf) = rent 0).
Proof. checked. Qed.
Example validator_stake_harvest_holder_rewards_wrapped :
  holds (let* w := both_stake 50 50 in
         let w := edit (set_seen w full) (holder_rewards conf)
                    (fun d => match d with DHolder h => DHolder (Hold full (h_deposited h)) | d => d end) in
         txs (paid 4000000000 100) [hh; hv authA] (give_pool 4000000000 w))
    (fun w => lamports w authA = 2000000000 /\ lamports w conf = 2000000000 + rent CONFIG_LEN /\
       seen (v_del (val w stakeA)) = 40000000 * SCALE /\ lamports w (vault_pda conf) = rent 0).
Proof. checked. Qed.
Example validator_stake_harvest_holder_rewards_with_no_rewards_available :
  holds (let* w := both_stake 50 50 in
         txs (paid 4000000000 100) [hh; hv authA] (give_pool 4000000000 (set_seen w (40000000 * SCALE))))
    (fun w => lamports w authA = 0 /\ lamports w conf = 4000000000 + rent CONFIG_LEN).
Proof. checked. Qed.
Example validator_stake_harvest_holder_rewards_after_harvesting :
  holds (let* w := both_stake 50 50 in txs (paid 4000000000 100) [hh; hv authA] (give_pool 4000000000 w))
    (fun w => lamports w authA = 2000000000) /\
  holds (let* w := both_stake 50 50 in
         let* w := txs (paid 4000000000 100) [hh; hv authA] (give_pool 4000000000 w) in
         txs (paid 4000000000 100) [hh; hv authA] w)
    (fun w => lamports w authA = 2000000000 /\ lamports w conf = 2000000000 + rent CONFIG_LEN /\
       seen (v_del (val w stakeA)) = 40000000 * SCALE).
Proof. checked. Qed.
Example validator_stake_fail_harvest_holder_rewards_with_wrong_authority :
  (let* w := both_stake 50 50 in txs (paid 4000000000 100) [hh; hv someone] (give_pool 4000000000 w))
  = Err (Stake InvalidAuthority).
Proof. checked. Qed.
Example fail_harvest_holder_rewards_with_uninitialized_config :
  (let* w := both_stake 50 50 in
   txs (paid 4000000000 100) [hh; hv authA] (put (give_pool 4000000000 w) conf (junk CONFIG_LEN)))
  = Err UninitializedAccount.
Proof. checked. Qed.
Example fail_harvest_holder_rewards_with_uninitialized_stake :
  (let* w := fixture in txs (paid 0 0) [hh; hv authA] (put w stakeA (junk VAL_LEN))) = Err UninitializedAccount.
Proof. checked. Qed.
Example fail_harvest_holder_rewards_with_wrong_config :
  (let* w := fixture in let* w := stake_validator 50 w in let* w := new_config conf2 w in
   txs (paid 4000000000 50) [holder_harvest conf2 (the_vault conf) (holder_rewards conf) (vault_pda conf2)]
     (give_pool 4000000000 w)) = Err (Stake IncorrectVaultAccount).
Proof. checked. Qed.
Example sol_staker_stake_harvest_holder_rewards :
  holds (let* w := both_stake 60 40 in txs (paid 4000000000 100) [hh; hs sol_auth1] (give_pool 4000000000 w))
    (fun w => lamports w sol_auth1 = 1600000000 /\ lamports w conf = 2400000000 + rent CONFIG_LEN /\
       seen (s_del (sol w stake1)) = 40000000 * SCALE /\ lamports w (vault_pda conf) = rent 0).
Proof. checked. Qed.
Example sol_staker_stake_harvest_holder_rewards_with_no_rewards_available :
  holds (let* w := both_stake 50 50 in txs (paid 0 100) [hh; hs sol_auth1] w)
    (fun w => lamports w sol_auth1 = 0 /\ lamports w conf = rent CONFIG_LEN).
Proof. checked. Qed.
Example sol_staker_stake_harvest_holder_rewards_after_harvesting :
  holds (let* w := both_stake 50 50 in txs (paid 4000000000 100) [hh; hs sol_auth1] (give_pool 4000000000 w))
    (fun w => lamports w sol_auth1 = 2000000000) /\
  holds (let* w := both_stake 50 50 in
         let* w := txs (paid 4000000000 100) [hh; hs sol_auth1] (give_pool 4000000000 w) in
         txs (paid 4000000000 100) [hh; hs sol_auth1] w)
    (fun w => lamports w sol_auth1 = 2000000000 /\ lamports w conf = 2000000000 + rent CONFIG_LEN /\
       seen (s_del (sol w stake1)) = 40000000 * SCALE).
Proof. checked. Qed.
Example sol_staker_stake_fail_harvest_holder_rewards_with_wrong_authority :
  (let* w := both_stake 50 50 in
   txs (paid 8000000000 100) [hh; hs someone] (give_pool 4000000000 (give_pool 4000000000 w)))
  = Err (Stake InvalidAuthority).
Proof. checked. Qed.
