(** [slash_validator_stake.rs] and [slash_sol_staker_stake.rs] of
    [/repo/clients/rust/tests], see [Conform.v]. *)
From stdpp Require Import gmap.
From Verif Require Import Base Types Layout Instr Math External Processor Runtime Declared Client Tx Demo Conform
  ConformStake ConformUnstake.

(** [mint_to] an account: its amount and the supply grow. *)
Definition mint_to (k : pubkey) (n : N) (w : world) : world :=
  let w := edit w k (fun d => match d with DToken t => DToken (set_t_amount t (t_amount t + n)) | d => d end) in
  edit w (the_mint conf) (fun d => match d with DMint m => DMint (Mnt (m_supply m + n) (m_decimals m)) | d => d end).
(** The tests set the config's effective amount and mint to the vault by hand. *)
Definition vault_with (eff n : N) (w : world) : world :=
  mint_to (the_vault conf) n (edit_cfg w conf (fun c => set_cfg_effective c eff)).
(** Accounts of a slash: the config [c]'s, the vault [v] and the vault's record [vhr]. *)
Definition slash_of (c k who by_whom v vhr : pubkey) : slash_accts :=
  SlashA c k who by_whom v vhr (vault_pda c) (the_mint c) (e_token denv).

(** ** slash_validator_stake.rs *)
Definition slash_v (k who n : N) : call :=
  CSlashValidatorStake (slash_of conf k who (authority conf) (the_vault conf) (holder_rewards conf)) n.
(** [eff] and [vault] of the config, [n] of the validator's stake. *)
Definition validator_with (eff vault n : N) : result world :=
  let* w := ready in Ok (val_at stakeA n n n 0 (vault_with eff vault w)).
Example slash_validator_stake :
  holds (let* w := validator_with 100 100 50 in tx at_start (slash_v stakeA authA 50) w)
    (fun w => tokens w (the_vault conf) = 50 /\ cfg_effective (cfg w conf) = 50 /\ staked (v_del (val w stakeA)) = 0).
Proof. checked. Qed.
Example fail_slash_validator_stake_with_zero_amount :
  (let* w := validator_with 100 100 50 in tx at_start (slash_v stakeA authA 0) w) = Err (Stake InvalidAmount).
Proof. checked. Qed.
Example slash_validator_stake_with_no_staked_amount :
  holds (let* w := ready in tx at_start (slash_v stakeA authA 50) (vault_with 100 100 w))
    (fun w => tokens w (the_vault conf) = 100).
Proof. checked. Qed.
Example fail_slash_validator_stake_with_invalid_slash_authority :
  (let* w := validator_with 100 100 50 in
   tx at_start (CSlashValidatorStake (slash_of conf stakeA authA someone (the_vault conf) (holder_rewards conf)) 50) w)
  = Err (Stake InvalidAuthority).
Proof. checked. Qed.
Definition fake_vault (w : world) : world := mint_to another 100 (put w another (empty_tokens (the_mint conf) conf)).
Example fail_slash_validator_stake_with_incorrect_vault_account :
  (let* w := validator_with 100 100 50 in
   tx at_start (CSlashValidatorStake (slash_of conf stakeA authA (authority conf) another (holder_rewards conf)) 50)
     (fake_vault w)) = Err (Stake IncorrectVaultAccount).
Proof. checked. Qed.
Example fail_slash_validator_stake_with_uninitialized_stake_account :
  (let* w := new_config conf ∅ in
   tx at_start (slash_v stakeA someone 50) (put (vault_with 100 100 w) stakeA (junk VAL_LEN)))
  = Err UninitializedAccount.
Proof. checked. Qed.
Example fail_slash_validator_stake_with_uninitialized_config_account :
  (let* w := validator_with 100 100 50 in tx at_start (slash_v stakeA authA 50) (put w conf (junk CONFIG_LEN)))
  = Err UninitializedAccount.
Proof. checked. Qed.
Example fail_slash_validator_stake_with_wrong_config_account :
  (let* w := validator_with 100 100 50 in let* w := new_config conf2 w in
   tx at_start (CSlashValidatorStake (slash_of conf2 stakeA authA (authority conf2) (the_vault conf2) (holder_rewards conf)) 50) w)
  = Err InvalidSeeds.
Proof. checked. Qed.
(** The test expects error 1, which is the token program's [InsufficientFunds]. *)
Example fail_slash_validator_stake_with_insufficient_total_amount_delegated :
  (let* w := validator_with 50 50 100 in tx at_start (slash_v stakeA authA 100) w) = Err TokenError.
Proof. checked. Qed.
Example slash_validator_stake_with_insufficient_stake_amount :
  holds (let* w := validator_with 900 1000 500 in tx at_start (slash_v stakeA authA 600) w)
    (fun w => tokens w (the_vault conf) = 500 /\ cfg_effective (cfg w conf) = 400 /\ staked (v_del (val w stakeA)) = 0).
Proof. checked. Qed.

(** ** slash_sol_staker_stake.rs *)
Definition slash_s (who n : N) : call :=
  CSlashSolStakerStake (slash_of conf stake1 who (authority conf) (the_vault conf) (holder_rewards conf)) n.
Definition set_stake1 (n : N) (w : world) : world :=
  edit_sol w stake1 (fun s => set_s_del s (set_effective (set_staked (s_del s) n) n)).
Definition staker_with (eff vault n : N) : result world :=
  let* w := with_sol_staker in Ok (set_stake1 n (vault_with eff vault w)).
Example slash_sol_staker_stake :
  holds (let* w := staker_with 100 100 50 in tx at_start (slash_s sol_auth1 50) w)
    (fun w => tokens w (the_vault conf) = 50 /\ cfg_effective (cfg w conf) = 50 /\ amounts w stake1 = (0, 0, 0)).
Proof. checked. Qed.
Example fail_slash_sol_staker_stake_with_zero_amount :
  (let* w := staker_with 100 100 50 in tx at_start (slash_s sol_auth1 0) w) = Err (Stake InvalidAmount).
Proof. checked. Qed.
Example slash_sol_staker_stake_with_no_staked_amount :
  holds (let* w := with_sol_staker in tx at_start (slash_s sol_auth1 50) (vault_with 100 100 w))
    (fun w => tokens w (the_vault conf) = 100).
Proof. checked. Qed.
Example fail_slash_sol_staker_stake_with_invalid_slash_authority :
  (let* w := staker_with 100 100 50 in
   tx at_start (CSlashSolStakerStake (slash_of conf stake1 sol_auth1 someone (the_vault conf) (holder_rewards conf)) 50) w)
  = Err (Stake InvalidAuthority).
Proof. checked. Qed.
Example fail_slash_sol_staker_stake_with_incorrect_vault_account :
  (let* w := staker_with 100 100 50 in
   tx at_start (CSlashSolStakerStake (slash_of conf stake1 sol_auth1 (authority conf) another (holder_rewards conf)) 50)
     (fake_vault w)) = Err (Stake IncorrectVaultAccount).
Proof. checked. Qed.
(** In the next three the vault's record is that of the vault itself, not of its owner,
    and the mint's authority signs. *)
Notation mint_authority := 1224.
Definition odd_slash (c who : pubkey) : call :=
  CSlashSolStakerStake (slash_of c stake1 who mint_authority (the_vault c) (e_holder denv (the_vault conf))) 50.
Example fail_slash_sol_staker_stake_with_uninitialized_stake_account :
  (let* w := new_config conf ∅ in
   tx at_start (odd_slash conf someone)
     (other_holder (the_vault conf) (put (vault_with 100 100 w) stake1 (junk SOL_LEN)))) = Err UninitializedAccount.
Proof. checked. Qed.
Example fail_slash_sol_staker_stake_with_uninitialized_config_account :
  (let* w := staker_with 100 100 50 in
   tx at_start (odd_slash conf sol_auth1) (put (other_holder (the_vault conf) w) conf (junk CONFIG_LEN)))
  = Err UninitializedAccount.
Proof. checked. Qed.
(** Called [fail_slash_validator_stake_with_wrong_config_account] there, too. *)
Example fail_slash_sol_staker_stake_with_wrong_config_account :
  (let* w := staker_with 100 100 50 in let* w := new_config conf2 w in
   tx at_start (odd_slash conf2 sol_auth1) (other_holder (the_vault conf) w)) = Err InvalidSeeds.
Proof. checked. Qed.
Example fail_slash_sol_staker_stake_with_insufficient_total_amount_delegated :
  (let* w := staker_with 100 100 200 in tx at_start (slash_s sol_auth1 200) w) = Err TokenError.
Proof. checked. Qed.
Example slash_sol_staker_stake_with_insufficient_stake_amount :
  holds (let* w := staker_with 900 1000 500 in tx at_start (slash_s sol_auth1 600) w)
    (fun w => tokens w (the_vault conf) = 500 /\ cfg_effective (cfg w conf) = 400 /\ amounts w stake1 = (0, 0, 0)).
Proof. checked. Qed.
