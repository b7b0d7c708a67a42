(** What the names of the interface description stand for. *)
From Coq Require Import String.
From Verif Require Import Base Types Layout Instr Processor Runtime Declared Client Idl.
Local Open Scope string_scope.
Local Open Scope list_scope.
Local Open Scope N_scope.

Definition ix_name (c : call) : string :=
  match c with
  | CInitializeConfig _ _ _ _ _ _ _ => "InitializeConfig"
  | CInitializeValidatorStake _ => "InitializeValidatorStake"
  | CValidatorStakeTokens _ _ => "ValidatorStakeTokens"
  | CHarvestHolderRewards _ => "HarvestHolderRewards"
  | CHarvestValidatorRewards _ => "HarvestValidatorRewards"
  | CSlashValidatorStake _ _ => "SlashValidatorStake"
  | CSetAuthority _ _ => "SetAuthority"
  | CUpdateConfig _ _ => "UpdateConfig"
  | CInitializeSolStakerStake _ => "InitializeSolStakerStake"
  | CSolStakerStakeTokens _ _ => "SolStakerStakeTokens"
  | CHarvestSolStakerRewards _ => "HarvestSolStakerRewards"
  | CUnstakeTokens _ _ => "UnstakeTokens"
  | CSlashSolStakerStake _ _ => "SlashSolStakerStake"
  | CSolStakerMoveTokens _ _ => "SolStakerMoveTokens"
  | CValidatorOverride _ _ => "ValidatorOverrideStakedLamports"
  | CValidatorSyncAuthority _ => "ValidatorSyncAuthority"
  end.
Definition bytes_of_hash (d : N) : ival := VList (map VNum (le_bytes 32 d)).
Definition ix_args (c : call) : list (string * ival) :=
  match c with
  | CInitializeConfig _ slash auth cd bps sync duna =>
      [("slashAuthority", VNum slash); ("configAuthority", VNum auth); ("cooldownTimeSeconds", VNum cd);
       ("maxDeactivationBasisPoints", VNum bps); ("syncRewardsLamports", VNum sync); ("dunaDocumentHash", bytes_of_hash duna)]
  | CValidatorStakeTokens _ n | CSlashValidatorStake _ n | CSolStakerStakeTokens _ n | CSlashSolStakerStake _ n => [("args", VNum n)]
  | CUnstakeTokens _ n | CSolStakerMoveTokens _ n => [("amount", VNum n)]
  | CValidatorOverride _ n => [("amountMin", VNum n)]
  | CSetAuthority _ t => [("authorityType", VVar (match t with AuthConfig => "Config" | AuthSlash => "Slash" end) [])]
  | CUpdateConfig _ f =>
      [("configField", match f with
                       | CooldownTimeSeconds x => VVar "CooldownTimeSeconds" [VNum x]
                       | MaxDeactivationBasisPoints x => VVar "MaxDeactivationBasisPoints" [VNum x]
                       | SyncRewardsLamports x => VVar "SyncRewardsLamports" [VNum x]
                       end)]
  | _ => []
  end.
(** The accounts of a call by name; programs and sysvars are the well-known ones, except where
    the caller names them. *)
Definition named (x : client_ids) (c : call) : list (string * pubkey) :=
  match c with
  | CInitializeConfig a _ _ _ _ _ _ =>
      [("config", ic_config a); ("mint", ic_mint a); ("vaultPda", ic_vault_pda a); ("vault", ic_vault a);
       ("vaultHolderRewards", ic_vhr a); ("rewardsProgram", id_rewards x)]
  | CInitializeValidatorStake a =>
      [("config", iv_config a); ("dunaDocumentPda", iv_duna a); ("validatorStake", iv_stake a); ("validatorVote", iv_vote a)]
  | CValidatorStakeTokens a _ =>
      [("config", st_config a); ("holderRewardsPool", st_pool a); ("holderRewardsPoolTokenAccount", st_ptok a);
       ("validatorStake", st_stake a); ("validatorStakeAuthority", st_authority a); ("sourceTokenAccount", st_source a);
       ("sourceTokenAccountAuthority", st_source_auth a); ("mint", st_mint a); ("vaultPda", st_vault_pda a);
       ("vault", st_vault a); ("vaultHolderRewards", st_vhr a); ("tokenProgram", st_tokprog a); ("rewardsProgram", id_rewards x)]
  | CSolStakerStakeTokens a _ =>
      [("config", st_config a); ("holderRewardsPool", st_pool a); ("holderRewardsPoolTokenAccount", st_ptok a);
       ("solStakerStake", st_stake a); ("solStakerStakeAuthority", st_authority a); ("sourceTokenAccount", st_source a);
       ("sourceTokenAccountAuthority", st_source_auth a); ("mint", st_mint a); ("vaultPda", st_vault_pda a);
       ("vault", st_vault a); ("vaultHolderRewards", st_vhr a); ("tokenProgram", st_tokprog a); ("rewardsProgram", id_rewards x)]
  | CHarvestHolderRewards a =>
      [("config", hh_config a); ("holderRewardsPool", hh_pool a); ("holderRewardsPoolTokenAccount", hh_ptok a);
       ("vault", hh_vault a); ("vaultHolderRewards", hh_vhr a); ("vaultPda", hh_vault_pda a); ("mint", hh_mint a);
       ("paladinRewardsProgram", id_rewards x)]
  | CHarvestValidatorRewards a =>
      [("config", hv_config a); ("vaultHolderRewards", hv_vhr a); ("validatorStake", hv_stake a);
       ("validatorStakeAuthority", hv_authority a)]
  | CSlashValidatorStake a _ =>
      [("config", sl_config a); ("validatorStake", sl_stake a); ("validatorStakeAuthority", sl_authority a);
       ("slashAuthority", sl_slash a); ("vault", sl_vault a); ("vaultHolderRewards", sl_vhr a);
       ("vaultAuthority", sl_vault_auth a); ("mint", sl_mint a); ("tokenProgram", sl_tokprog a)]
  | CSlashSolStakerStake a _ =>
      [("config", sl_config a); ("solStakerStake", sl_stake a); ("solStakerStakeAuthority", sl_authority a);
       ("slashAuthority", sl_slash a); ("vault", sl_vault a); ("vaultHolderRewards", sl_vhr a);
       ("vaultAuthority", sl_vault_auth a); ("mint", sl_mint a); ("tokenProgram", sl_tokprog a)]
  | CSetAuthority a _ => [("account", sa_account a); ("authority", sa_authority a); ("newAuthority", sa_new a)]
  | CUpdateConfig a _ => [("config", uc_config a); ("configAuthority", uc_authority a)]
  | CInitializeSolStakerStake a =>
      [("config", is_config a); ("dunaDocumentPda", is_duna a); ("solStakerStake", is_stake a);
       ("solStakerAuthorityOverride", is_override a); ("validatorStake", is_val a); ("solStakerNativeStake", is_native a);
       ("solStakeViewProgram", is_view a)]
  | CHarvestSolStakerRewards a =>
      [("solStakeViewProgram", hs_view a); ("config", hs_config a); ("vaultHolderRewards", hs_vhr a);
       ("solStakerStake", hs_stake a); ("solStakerStakeAuthority", hs_authority a); ("solStakerNativeStake", hs_native a);
       ("previousValidatorStake", hs_prev a); ("previousValidatorStakeAuthority", hs_prev_auth a);
       ("currentValidatorStake", hs_cur a); ("currentValidatorStakeAuthority", hs_cur_auth a)] ++
      match hs_keeper a with Some k => [("keeperRecipient", k)] | None => [] end
  | CUnstakeTokens a _ =>
      [("config", un_config a); ("holderRewardsPool", un_pool a); ("holderRewardsPoolTokenAccount", un_ptok a);
       ("stake", un_stake a); ("stakeAuthority", un_authority a); ("vault", un_vault a); ("vaultPda", un_vault_pda a);
       ("vaultHolderRewards", un_vhr a); ("mint", un_mint a); ("destinationTokenAccount", un_dest a);
       ("tokenProgram", un_tokprog a); ("rewardsProgram", id_rewards x)]
  | CSolStakerMoveTokens a _ =>
      [("config", mv_config a); ("vaultHolderRewards", mv_vhr a); ("solStakerAuthority", mv_authority a);
       ("sourceSolStakerStake", mv_source a); ("destinationSolStakerStake", mv_dest a)]
  | CValidatorOverride a _ =>
      [("config", ov_config a); ("configAuthority", ov_config_auth a); ("validatorStake", ov_stake a);
       ("validatorStakeAuthority", ov_stake_auth a); ("vaultHolderRewards", ov_vhr a)]
  | CValidatorSyncAuthority a => [("config", sy_config a); ("validatorStake", sy_stake a); ("validatorVote", sy_vote a)]
  end.
Definition well_known (x : client_ids) : list (string * pubkey) :=
  [("systemProgram", id_system x); ("tokenProgram", id_token x); ("sysvarStakeHistory", id_history x)].
Definition given (x : client_ids) (c : call) (s : string) : option pubkey := find (named x c ++ well_known x) s.

(** Account contents as values of the described types. *)
Definition of_bytes (l : list N) : ival := VList (map VNum l).
Definition delegation_value (d : delegation) : ival :=
  VRec [("stakedAmount", VNum (staked d)); ("effectiveAmount", VNum (effective d)); ("unstakeCooldown", VNum (cooldown d));
        ("authority", VNum (authority d)); ("validatorVote", VNum (vote d));
        ("lastSeenHolderRewardsPerToken", VNum (last_holder d)); ("lastSeenStakeRewardsPerToken", VNum (last_stake d))].
Definition config_value (disc duna padding : list N) (c : config) : ival :=
  VRec [("discriminator", of_bytes disc); ("authority", VNum (cfg_authority c)); ("slashAuthority", VNum (cfg_slash c));
        ("vault", VNum (cfg_vault c)); ("cooldownTimeSeconds", VNum (cfg_cooldown c));
        ("tokenAmountEffective", VNum (cfg_effective c)); ("syncRewardsLamports", VNum (cfg_sync c));
        ("lamportsLast", VNum (cfg_last c)); ("dunaDocumentHash", of_bytes duna);
        ("accumulatedStakeRewardsPerToken", VNum (cfg_acc c)); ("maxDeactivationBasisPoints", VNum (cfg_bps c));
        ("vaultAuthorityBump", VNum (cfg_bump c)); ("padding", of_bytes padding)].
Definition val_value (disc : list N) (v : vstake) : ival :=
  VRec [("discriminator", of_bytes disc); ("delegation", delegation_value (v_del v));
        ("totalStakedLamportsAmount", VNum (v_total v)); ("totalStakedLamportsAmountMin", VNum (v_min v))].
Definition sol_value (disc : list N) (s : sstake) : ival :=
  VRec [("discriminator", of_bytes disc); ("delegation", delegation_value (s_del s));
        ("lamportsAmount", VNum (s_lamports s)); ("solStake", VNum (s_native s))].
