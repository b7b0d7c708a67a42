(** [validator_stake_tokens.rs], [sol_staker_stake_tokens.rs] and
    [sol_staker_move_tokens.rs] of [/repo/clients/rust/tests], see [Conform.v]. *)
From stdpp Require Import gmap.
From Verif Require Import Base Types Layout Instr Math External Processor Runtime Declared Client Tx Demo Conform.

(** ** validator_stake_tokens.rs *)
Definition stake_accounts (c k who vpda v vhr : pubkey) : stake_accts :=
  StakeA c (the_pool conf) (pool_tokens conf) k who owner_tokens owner (the_mint conf) vpda v vhr (e_token denv).
Definition stake_v (c k who vpda v vhr n : N) : call := CValidatorStakeTokens (stake_accounts c k who vpda v vhr) n.
Definition deposited (w : world) : N :=
  match dat (get w (holder_rewards conf)) with DHolder h => h_deposited h | _ => 0 end.
Example validator_stake_tokens_simple :
  holds (let* w := ready in
         tx at_start (stake_v conf stakeA authA (vault_pda conf) (the_vault conf) (holder_rewards conf) 65)
           (holding 100 (val_at stakeA 0 0 50 0 w)))
    (fun w => staked (v_del (val w stakeA)) = 65 /\ tokens w (the_vault conf) = 0 /\ cfg_effective (cfg w conf) = 65 /\
       tokens w (pool_tokens conf) = 65 /\ deposited w = 65).
Proof. checked. Qed.
Definition other_holder (k : pubkey) (w : world) : world :=
  put w (e_holder denv k) (Acct (rent 32) (e_rewards denv) (DHolder (Hold 0 0))).
Example fail_validator_stake_tokens_with_wrong_vault_holder_rewards_account :
  (let* w := ready in
   tx at_start (stake_v conf stakeA authA someone another (e_holder denv someone) 50)
     (put (other_holder someone (holding 100 w)) another (empty_tokens (the_mint conf) someone)))
  = Err (Stake InvalidVaultHolderRewardsSeeds).
Proof. checked. Qed.
Example fail_validator_stake_tokens_with_wrong_vault_pda_account :
  (let* w := ready in
   tx at_start (stake_v conf stakeA authA someone (the_vault conf) (holder_rewards conf) 50) (holding 100 w))
  = Err (Stake IncorrectVaultPdaAccount).
Proof. checked. Qed.
Example fail_validator_stake_tokens_with_wrong_vault_token_account :
  (let* w := ready in
   tx at_start (stake_v conf stakeA authA (vault_pda conf) another (holder_rewards conf) 50)
     (put (holding 100 w) another (empty_tokens (the_mint conf) someone))) = Err (Stake IncorrectVaultAccount).
Proof. checked. Qed.
Example fail_validator_stake_tokens_with_wrong_config_account :
  (let* w := ready in let* w := new_config conf2 w in
   tx at_start (stake_v conf2 stakeA authA (vault_pda conf) (the_vault conf) (holder_rewards conf) 50) (holding 100 w))
  = Err InvalidSeeds.
Proof. checked. Qed.
Example fail_validator_stake_tokens_with_zero_amount :
  (let* w := ready in
   tx at_start (stake_v conf stakeA authA (vault_pda conf) (the_vault conf) (holder_rewards conf) 0) (holding 100 w))
  = Err (Stake InvalidAmount).
Proof. checked. Qed.
Example fail_validator_stake_tokens_with_uninitialized_stake_account :
  (let* w := new_config conf ∅ in
   tx at_start (stake_v conf stakeA someone (vault_pda conf) (the_vault conf) (holder_rewards conf) 50)
     (put (put (holding 100 w) voteA (vote_account (e_votep denv) (authority conf))) stakeA (junk VAL_LEN)))
  = Err UninitializedAccount.
Proof. checked. Qed.
Example fail_validator_stake_tokens_without_staked_sol :
  holds (let* w := ready in
         tx at_start (stake_v conf stakeA authA (vault_pda conf) (the_vault conf) (holder_rewards conf) 50) (holding 100 w))
    (fun w => let v := val w stakeA in v_total v = 0 /\ effective (v_del v) = 0 /\ staked (v_del v) = 50).
Proof. checked. Qed.
Example validator_stake_tokens_with_insufficient_staked_sol_effective_capped :
  holds (let* w := ready in
         tx at_start (stake_v conf stakeA authA (vault_pda conf) (the_vault conf) (holder_rewards conf) 2600000001)
           (holding 2600000001 (val_at stakeA 0 0 2000000000 0 w)))
    (fun w => let v := val w stakeA in
       v_total v = 2000000000 /\ effective (v_del v) = 2600000000 /\ staked (v_del v) = 2600000001).
Proof. checked. Qed.

(** ** sol_staker_stake_tokens.rs *)
Definition stake1 : pubkey := sol_stake native1 conf.
Definition stake2 : pubkey := sol_stake native2 conf.
Definition five_sol : result world := let* w := ready in new_sol_staker conf native1 voteA owner 5000000000 w.
Definition stake_s (c k v vhr n : N) : call := CSolStakerStakeTokens (stake_accounts c k owner (vault_pda conf) v vhr) n.
Example sol_staker_stake_tokens_simple :
  holds (let* w := five_sol in
         tx at_start (stake_s conf stake1 (the_vault conf) (holder_rewards conf) 6500000000) (holding 6500000000 w))
    (fun w => staked (s_del (sol w stake1)) = 6500000000 /\ tokens w (the_vault conf) = 0 /\
       cfg_effective (cfg w conf) = 6500000000 /\ tokens w (pool_tokens conf) = 6500000000 /\ deposited w = 6500000000).
Proof. checked. Qed.
Example fail_sol_staker_stake_tokens_with_wrong_vault_account :
  (let* w := five_sol in
   tx at_start (stake_s conf stake1 someone (e_holder denv someone) 6500000000)
     (put (other_holder someone (holding 6500000000 w)) someone (empty_tokens (the_mint conf) (authority conf))))
  = Err (Stake InvalidVaultHolderRewardsSeeds).
Proof. checked. Qed.
Example fail_sol_staker_stake_tokens_with_wrong_config_account :
  (let* w := five_sol in let* w := new_config conf2 w in
   tx at_start (stake_s conf2 stake1 (the_vault conf) (holder_rewards conf) 6500000000) (holding 6500000000 w))
  = Err InvalidSeeds.
Proof. checked. Qed.
Example fail_sol_staker_stake_tokens_with_zero_amount :
  (let* w := five_sol in
   tx at_start (stake_s conf stake1 (the_vault conf) (holder_rewards conf) 0) (holding 6500000000 w))
  = Err (Stake InvalidAmount).
Proof. checked. Qed.
Example fail_sol_staker_stake_tokens_with_uninitialized_stake_account :
  (let* w := five_sol in
   tx at_start (stake_s conf stake1 (the_vault conf) (holder_rewards conf) 6500000000)
     (put (holding 6500000000 w) stake1 (junk SOL_LEN))) = Err UninitializedAccount.
Proof. checked. Qed.
Example sol_staker_stake_tokens_with_insufficient_staked_sol_reduces_effective :
  holds (let* w := five_sol in
         tx at_start (stake_s conf stake1 (the_vault conf) (holder_rewards conf) 6500000001) (holding 6500000001 w))
    (fun w => staked (s_del (sol w stake1)) = 6500000001 /\ effective (s_del (sol w stake1)) = 6500000000 /\
       cfg_effective (cfg w conf) = 6500000000).
Proof. checked. Qed.

(** ** sol_staker_move_tokens.rs *)
Definition set_s_staked (n cool : N) (s : sstake) : sstake := set_s_del s (set_cooldown (set_staked (s_del s) n) cool).
(** Two accounts of [sol_auth1], the second of [auth]; [staked_amount] and [unstake_cooldown] set by hand. *)
Definition pair_of (auth n1 c1 n2 c2 : N) : result world :=
  let* w := ready in
  let* w := new_sol_staker conf native1 voteA sol_auth1 5000000000 w in
  let* w := new_sol_staker conf native2 voteA auth 5000000000 w in
  Ok (edit_sol (edit_sol w stake1 (set_s_staked n1 c1)) stake2 (set_s_staked n2 c2)).
Definition move (who n : N) : call := CSolStakerMoveTokens (MoveA conf (holder_rewards conf) who stake1 stake2) n.
Definition amounts (w : world) (k : pubkey) : N * N * N :=
  let d := s_del (sol w k) in (staked d, effective d, cooldown d).
Definition accumulated (w : world) : N * N := (cfg_acc (cfg w conf), cfg_effective (cfg w conf)).
Example transfer_to_empty :
  holds (let* w := pair_of sol_auth1 10 0 0 0 in tx at_start (move sol_auth1 3) w)
    (fun w => amounts w stake1 = (7, 7, 0) /\ amounts w stake2 = (3, 3, 0) /\ accumulated w = (0, 10)).
Proof. checked. Qed.
Example transfer_to_not_empty :
  holds (let* w := pair_of sol_auth1 10 0 10 0 in tx at_start (move sol_auth1 5) w)
    (fun w => amounts w stake1 = (5, 5, 0) /\ amounts w stake2 = (15, 15, 0) /\ accumulated w = (0, 20)).
Proof. checked. Qed.
Example transfer_from_account_with_cooldown :
  holds (let* w := pair_of sol_auth1 10 42 10 0 in tx at_start (move sol_auth1 5) w)
    (fun w => amounts w stake1 = (5, 5, 42) /\ amounts w stake2 = (15, 15, 42) /\ accumulated w = (0, 20)).
Proof. checked. Qed.
Example transfer_to_account_with_cooldown :
  holds (let* w := pair_of sol_auth1 10 0 10 42 in tx at_start (move sol_auth1 5) w)
    (fun w => amounts w stake1 = (5, 5, 0) /\ amounts w stake2 = (15, 15, 42) /\ accumulated w = (0, 20)).
Proof. checked. Qed.
Example transfer_without_authority_signature_err :
  (let* w := pair_of sol_auth1 10 0 10 0 in tx_unsigned sol_auth1 at_start (move sol_auth1 5) w)
  = Err MissingRequiredSignature.
Proof. checked. Qed.
Example transfer_with_wrong_authority_err :
  (let* w := pair_of sol_auth1 10 0 10 0 in tx at_start (move someone 5) w) = Err (Stake InvalidAuthority).
Proof. checked. Qed.
Example transfer_to_account_with_different_authority_err :
  (let* w := pair_of sol_auth2 10 0 10 0 in tx at_start (move someone 5) w) = Err (Stake InvalidAuthority).
Proof. checked. Qed.
