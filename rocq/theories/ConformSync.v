(** [harvest_sol_staker_rewards.rs] of [/repo/clients/rust/tests], see [Conform.v]. *)
From stdpp Require Import gmap.
From Verif Require Import Base Types Layout Instr Math External Processor Runtime Declared Client Tx Demo Conform
  ConformStake ConformUnstake.

Definition SWAD : N := 1000000000.
(** [HarvestSolStakerRewards] with the accounts the tests vary. *)
Definition harvest_of (viewer c vhr who nat prev prev_auth cur cur_auth : N) (keep : option N) : call :=
  CHarvestSolStakerRewards (HarvestSolA viewer c vhr stake1 who nat prev prev_auth cur cur_auth keep).
Definition usual (c who nat prev cur cur_auth : N) (keep : option N) : call :=
  harvest_of (e_view denv) c (holder_rewards conf) who nat prev authA cur cur_auth keep.
Definition staker_of (n : N) : result world :=
  let* w := ready in new_sol_staker conf native1 voteA sol_auth1 n w.
Definition with_wallets (w : world) : world := put (put w sol_auth1 wallet) keeper wallet.
Definition last (w : world) : N := last_stake (s_del (sol w stake1)).
Definition last_v (w : world) : N := last_stake (v_del (val w stakeA)).

(** ** Without a change of the native stake *)
Definition fifty : view := delegated voteA sol_auth1 (50 * SWAD).
Definition plain : call := usual conf sol_auth1 native1 stakeA stakeA authA None.
(** The tests' edits: the validator's total, the staker's stake, its wallet, the config. *)
Definition sixtyfive (eff acc extra lastv lasts : N) : result world :=
  let* w := staker_of (50 * SWAD) in
  Ok (config_at eff acc extra (put (sol_at stake1 (65 * SWAD) (65 * SWAD) (50 * SWAD) lasts
        (val_at stakeA 0 0 (50 * SWAD) lastv w)) sol_auth1 wallet)).
Example harvest_sol_staker_rewards :
  holds (let* w := sixtyfive 0 (per_token 26 130) (26 * SWAD) 0 0 in tx (seeing fifty) plain w)
    (fun w => lamports w sol_auth1 = 100000000 + 13 * SWAD /\ last w = 200000000000000000).
Proof. checked. Qed.
Example harvest_sol_staker_rewards_wrapped :
  holds (let* w := sixtyfive (130 * SWAD) (per_token 26 130) (26 * SWAD) full 0 in tx (seeing fifty) plain w)
    (fun w => lamports w sol_auth1 = 100000000 + 13 * SWAD /\ last w = 200000000000000000).
Proof. checked. Qed.
Example harvest_sol_staker_rewards_with_no_rewards_available :
  holds (let* w := sixtyfive (130 * SWAD) 0 0 0 0 in tx (seeing fifty) plain w)
    (fun w => lamports w sol_auth1 = 100000000 /\ lamports w conf = rent CONFIG_LEN).
Proof. checked. Qed.
Example harvest_sol_staker_rewards_after_harvesting :
  holds (let* w := sixtyfive (130 * SWAD) (per_token 26 130) (26 * SWAD) 0 (per_token 26 130) in
         tx (seeing fifty) plain w)
    (fun w => lamports w sol_auth1 = 100000000 /\ lamports w conf = rent CONFIG_LEN + 26 * SWAD).
Proof. checked. Qed.
Definition standard : result world := sixtyfive (130 * SWAD) (per_token 26 130) (26 * SWAD) 0 0.
Example fail_harvest_sol_staker_rewards_with_wrong_authority :
  (let* w := standard in tx (seeing fifty) (usual conf someone native1 stakeA stakeA authA None) w)
  = Err (Stake InvalidAuthority).
Proof. checked. Qed.
Example fail_harvest_sol_staker_rewards_with_wrong_config_account :
  (let* w := standard in let* w := new_config conf2 w in
   tx (seeing fifty) (usual conf2 sol_auth1 native1 stakeA stakeA authA None) w) = Err InvalidSeeds.
Proof. checked. Qed.
Example fail_harvest_sol_staker_rewards_with_uninitialized_stake_account :
  (let* w := standard in tx (seeing fifty) plain (put w stake1 (junk SOL_LEN))) = Err UninitializedAccount.
Proof. checked. Qed.

(** ** With a change of the native stake *)
(** What the stake view program may answer once the account was deactivated; its source
    is not in the repository, and the tests pass with either. *)
Definition deactivated (P : view -> Prop) : Prop := P (delegated voteA sol_auth1 0) /\ P (undelegated sol_auth1).
Definition kept : call := usual conf sol_auth1 native1 stakeA stakeA authA (Some keeper).
Definition five : N := 5000000000.
Definition behind (w : world) : N * N := (s_lamports (sol w stake1), v_total (val w stakeA)).
Example harvest_sol_stake_when_deactivating :
  holds (staker_of five) (fun w => behind w = (five, five)) /\
  deactivated (fun v => holds (let* w := staker_of five in tx (seeing v) kept (with_wallets w)) (fun w => behind w = (0, 0))).
Proof. checked. Qed.
Example harvest_sol_stake_when_inactive :
  holds (staker_of five) (fun w => behind w = (five, five)) /\
  deactivated (fun v => holds (let* w := staker_of five in tx (seeing v) kept (with_wallets w)) (fun w => behind w = (0, 0))).
Proof. checked. Qed.
Example sync_sol_stake_when_effective :
  holds (staker_of five) (fun w => behind w = (five, five)) /\
  holds (let* w := staker_of five in tx (seeing (delegated voteA sol_auth1 five)) kept (with_wallets w))
    (fun w => behind w = (five, five)).
Proof. checked. Qed.
Example sync_sol_stake_when_activating :
  holds (let* w := staker_of five in tx (seeing (delegated voteA sol_auth1 five)) kept (with_wallets w))
    (fun w => behind w = (five, five)).
Proof. checked. Qed.
Example fail_sync_sol_stake_with_wrong_config_account :
  (let* w := staker_of five in let* w := new_config conf2 w in
   tx (seeing (delegated voteA sol_auth1 five)) (usual conf2 sol_auth1 native1 stakeA stakeA authA (Some keeper))
     (with_wallets w)) = Err InvalidSeeds.
Proof. checked. Qed.
Example fail_sync_sol_stake_with_wrong_sol_stake_account :
  (let* w := staker_of five in
   tx (seeing (undelegated someone)) (usual conf sol_auth1 native2 stakeA stakeA authA (Some keeper))
     (with_wallets w)) = Err (Stake IncorrectSolStakeAccount).
Proof. checked. Qed.
Example fail_sync_sol_stake_with_wrong_validator_stake :
  deactivated (fun v =>
    (let* w := staker_of five in let* w := new_validator conf voteB authB w in
     tx (seeing v) (usual conf sol_auth1 native1 stakeB stakeA authA (Some keeper)) (with_wallets w))
    = Err InvalidSeeds).
Proof. checked. Qed.
Example fail_sync_sol_stake_with_uninitialized_config :
  (let* w := staker_of five in
   tx (seeing (delegated voteA sol_auth1 five)) kept (with_wallets (put w conf (junk CONFIG_LEN))))
  = Err UninitializedAccount.
Proof. checked. Qed.
Example fail_sync_sol_stake_with_uninitialized_validator_stake :
  deactivated (fun v =>
    (let* w := staker_of five in tx (seeing v) kept (with_wallets (put w stakeA (junk VAL_LEN))))
    = Err UninitializedAccount).
Proof. checked. Qed.
Example fail_sync_sol_stake_with_invalid_sol_stake_view_program :
  (let* w := staker_of five in
   tx (seeing (delegated voteA sol_auth1 five))
     (harvest_of someone conf (holder_rewards conf) sol_auth1 native1 stakeA authA stakeA authA (Some keeper))
     (with_wallets w)) = Err IncorrectProgramId.
Proof. checked. Qed.
Example sync_sol_stake_sol_stake_redelegate_to_non_pal :
  holds (staker_of five) (fun w => behind w = (five, five)) /\
  holds (let* w := staker_of five in
         tx (seeing (delegated voteB sol_auth1 five)) (usual conf sol_auth1 native1 stakeA stakeB someone (Some keeper))
           (with_wallets (put w voteB (vote_account (e_votep denv) authB))))
    (fun w => behind w = (0, 0) /\ cfg_effective (cfg w conf) = 0).
Proof. checked. Qed.

(** ** The keeper's reward *)
Definition acc1 : N := per_token 1300000000 1300000000.
(** The config and the staker as the tests set them; [sync] is the config's reward for a re-sync. *)
Definition with_rewards (sync acc n lasts : N) : result world :=
  let* w := config_with 1 500 sync conf ∅ in
  let* w := new_validator conf voteA authA w in
  let* w := new_sol_staker conf native1 voteA sol_auth1 SWAD w in
  Ok (with_wallets (config_at 1300000000 acc 1300000000 (sol_at stake1 n 1300000000 SWAD lasts w))).
Example harvest_sync_rewards_base :
  holds (with_rewards 1000000 acc1 1300000000 0) (fun w => behind w = (SWAD, SWAD)) /\
  deactivated (fun v => holds (let* w := with_rewards 1000000 acc1 1300000000 0 in tx (seeing v) kept w)
    (fun w => lamports w keeper = 100000000 + 1000000 /\ lamports w sol_auth1 = 100000000 + 1299000000 /\
       behind w = (0, 0) /\ last w = cfg_acc (cfg w conf))).
Proof. checked. Qed.
Example harvest_sync_rewards_wrapped :
  holds (with_rewards 1000000 acc1 0 full) (fun w => behind w = (SWAD, SWAD)) /\
  deactivated (fun v => holds (let* w := with_rewards 1000000 acc1 0 full in tx (seeing v) kept w)
    (fun w => lamports w keeper = 100000000 + 1000000 /\ lamports w sol_auth1 = 100000000 + 1299000000 /\
       behind w = (0, 0) /\ last_v w = cfg_acc (cfg w conf) /\ last w = cfg_acc (cfg w conf))).
Proof. checked. Qed.
Definition unrewarded : result world :=
  let* w := staker_of SWAD in Ok (with_wallets (config_at 1300000000 acc1 1300000000 w)).
Example harvest_sync_rewards_without_rewards :
  holds unrewarded (fun w => behind w = (SWAD, SWAD)) /\
  deactivated (fun v => holds (let* w := unrewarded in tx (seeing v) kept w)
    (fun w => lamports w keeper = 100000000 /\ behind w = (0, 0) /\ last w = acc1 /\
       lamports w conf = rent CONFIG_LEN + 1300000000)).
Proof. checked. Qed.
(** A closed account: the view program answers with zeroes. *)
Example harvest_sync_rewards_with_closed_sol_stake_account :
  holds (with_rewards 1000000 acc1 1300000000 0) (fun w => behind w = (SWAD, SWAD)) /\
  holds (let* w := with_rewards 1000000 acc1 1300000000 0 in tx (seeing (View 0 0 0)) kept w)
    (fun w => lamports w keeper = 100000000 + 1000000 /\ lamports w sol_auth1 = 100000000 + 1299000000 /\
       behind w = (0, 0) /\ last_v w = cfg_acc (cfg w conf) /\ last w = cfg_acc (cfg w conf)).
Proof. checked. Qed.
Example harvest_sync_rewards_with_capped_sync_rewards :
  holds (with_rewards 1300000001 (acc1 + 200000000) 1300000000 200000000) (fun w => behind w = (SWAD, SWAD)) /\
  deactivated (fun v =>
    holds (let* w := with_rewards 1300000001 (acc1 + 200000000) 1300000000 200000000 in tx (seeing v) kept w)
    (fun w => lamports w keeper = 100000000 + 1300000000 /\ lamports w sol_auth1 = 100000000 /\
       behind w = (0, 0) /\ last_v w = cfg_acc (cfg w conf) /\ last w = cfg_acc (cfg w conf))).
Proof. checked. Qed.
Example fail_harvest_sync_rewards_with_wrong_sol_stake_account :
  (let* w := staker_of SWAD in
   tx (seeing (undelegated someone)) (usual conf sol_auth1 native2 stakeA stakeA authA (Some keeper)) (with_wallets w))
  = Err (Stake IncorrectSolStakeAccount).
Proof. checked. Qed.
Definition moved_away : result world :=
  let* w := staker_of SWAD in let* w := new_validator conf voteB authB w in Ok (with_wallets w).
Example fail_harvest_sync_rewards_with_wrong_previous_validator_stake_account :
  (let* w := moved_away in
   tx (seeing (delegated voteB sol_auth1 SWAD)) (usual conf sol_auth1 native1 stakeB stakeB authB (Some keeper)) w)
  = Err InvalidSeeds.
Proof. checked. Qed.
Example fail_harvest_sync_rewards_with_wrong_current_validator_stake_account :
  (let* w := moved_away in
   tx (seeing (delegated voteB sol_auth1 SWAD)) (usual conf sol_auth1 native1 stakeA stakeA authB (Some keeper)) w)
  = Err InvalidSeeds.
Proof. checked. Qed.
Example fail_harvest_sync_rewards_with_wrong_config_account :
  (let* w := staker_of SWAD in let* w := new_config conf2 w in
   tx (seeing (delegated voteA sol_auth1 SWAD)) (usual conf2 sol_auth1 native1 stakeA stakeA authA (Some keeper))
     (with_wallets w)) = Err InvalidSeeds.
Proof. checked. Qed.
Example fail_harvest_sync_rewards_with_invalid_sol_stake_view_program :
  (let* w := staker_of SWAD in
   tx (seeing (delegated voteA sol_auth1 SWAD))
     (harvest_of someone conf (holder_rewards conf) sol_auth1 native1 stakeA authA stakeA authA (Some keeper))
     (with_wallets w)) = Err IncorrectProgramId.
Proof. checked. Qed.
Example fail_harvest_sync_rewards_with_wrong_vault_holder_rewards :
  (let* w := staker_of SWAD in
   tx (seeing (delegated voteA sol_auth1 SWAD))
     (harvest_of (e_view denv) conf (e_holder denv someone) sol_auth1 native1 stakeA authA stakeA authA (Some keeper))
     (other_holder someone (other_holder (the_vault conf) (with_wallets w)))) = Err InvalidSeeds.
Proof. checked. Qed.
