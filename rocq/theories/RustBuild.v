(** The Rust client's builders: [*Builder], [*Cpi] and [*CpiBuilder] of
    [/repo/clients/rust/src/generated/instructions/*.rs].  The sixteen files are
    instances of one template; what differs is transcribed into a table. *)
From Coq Require Import String.
From Verif Require Import Base Types Layout Instr Processor Runtime Declared Client.
Local Open Scope string_scope.
Local Open Scope list_scope.
Local Open Scope N_scope.

(** How the builder fills an account of the instruction: [expect("… is not set")],
    [unwrap_or(pubkey!("…"))], or the [Option] as it is. *)
Inductive source := Must | Default (address : string) | Maybe.
(** [accounts.push(AccountMeta::new / new_readonly (…, signer))]; an optional account that
    is not given is replaced by the program's id, read-only. *)
Record rmeta := RMeta { rm_name : string; rm_write : bool; rm_sign : bool; rm_optional : bool }.
Record rbuild := RBuild {
  rb_name : string; rb_disc : N;
  rb_fill : list (string * source); rb_metas : list rmeta;
  rb_cpi_fill : list (string * source); rb_cpi_metas : list rmeta; rb_cpi_infos : list string;
  rb_args : list string }.

Definition rust_builders : list rbuild := [
  RBuild "InitializeConfig" 0
    (* Builder::instruction *) [("config", Must); ("mint", Must); ("vault_pda", Must); ("vault", Must);
       ("vault_holder_rewards", Must); ("system_program", Default "11111111111111111111111111111111"); ("rewards_program", Must)]
    (* accounts *) [RMeta "config" true false false; RMeta "mint" false false false; RMeta "vault_pda" true false false;
       RMeta "vault" false false false; RMeta "vault_holder_rewards" true false false;
       RMeta "system_program" false false false; RMeta "rewards_program" false false false]
    (* CpiBuilder::invoke_signed *) [("config", Must); ("mint", Must); ("vault_pda", Must); ("vault", Must);
       ("vault_holder_rewards", Must); ("system_program", Must); ("rewards_program", Must)]
    (* accounts *) [RMeta "config" true false false; RMeta "mint" false false false; RMeta "vault_pda" true false false;
       RMeta "vault" false false false; RMeta "vault_holder_rewards" true false false;
       RMeta "system_program" false false false; RMeta "rewards_program" false false false]
    (* account_infos *) ["config"; "mint"; "vault_pda"; "vault"; "vault_holder_rewards"; "system_program"; "rewards_program"]
    (* args *) ["slash_authority"; "config_authority"; "cooldown_time_seconds"; "max_deactivation_basis_points";
       "sync_rewards_lamports"; "duna_document_hash"];
  RBuild "InitializeValidatorStake" 1
    (* Builder::instruction *) [("config", Must); ("duna_document_pda", Must); ("validator_stake", Must);
       ("validator_vote", Must); ("system_program", Default "11111111111111111111111111111111")]
    (* accounts *) [RMeta "config" false false false; RMeta "duna_document_pda" false false false;
       RMeta "validator_stake" true false false; RMeta "validator_vote" false false false;
       RMeta "system_program" false false false]
    (* CpiBuilder::invoke_signed *) [("config", Must); ("duna_document_pda", Must); ("validator_stake", Must);
       ("validator_vote", Must); ("system_program", Must)]
    (* accounts *) [RMeta "config" false false false; RMeta "duna_document_pda" false false false;
       RMeta "validator_stake" true false false; RMeta "validator_vote" false false false;
       RMeta "system_program" false false false]
    (* account_infos *) ["config"; "duna_document_pda"; "validator_stake"; "validator_vote"; "system_program"]
    (* args *) [];
  RBuild "ValidatorStakeTokens" 2
    (* Builder::instruction *) [("config", Must); ("holder_rewards_pool", Must); ("holder_rewards_pool_token_account", Must);
       ("validator_stake", Must); ("validator_stake_authority", Must); ("source_token_account", Must);
       ("source_token_account_authority", Must); ("mint", Must); ("vault_pda", Must); ("vault", Must);
       ("vault_holder_rewards", Must); ("token_program", Default "TokenkegQfeZyiNwAJbNbGKPFXCWuBvf9Ss623VQ5DA");
       ("rewards_program", Must)]
    (* accounts *) [RMeta "config" true false false; RMeta "holder_rewards_pool" true false false;
       RMeta "holder_rewards_pool_token_account" true false false; RMeta "validator_stake" true false false;
       RMeta "validator_stake_authority" false false false; RMeta "source_token_account" true false false;
       RMeta "source_token_account_authority" false true false; RMeta "mint" false false false;
       RMeta "vault_pda" true false false; RMeta "vault" true false false; RMeta "vault_holder_rewards" true false false;
       RMeta "token_program" false false false; RMeta "rewards_program" false false false]
    (* CpiBuilder::invoke_signed *) [("config", Must); ("holder_rewards_pool", Must);
       ("holder_rewards_pool_token_account", Must); ("validator_stake", Must); ("validator_stake_authority", Must);
       ("source_token_account", Must); ("source_token_account_authority", Must); ("mint", Must); ("vault_pda", Must);
       ("vault", Must); ("vault_holder_rewards", Must); ("token_program", Must); ("rewards_program", Must)]
    (* accounts *) [RMeta "config" true false false; RMeta "holder_rewards_pool" true false false;
       RMeta "holder_rewards_pool_token_account" true false false; RMeta "validator_stake" true false false;
       RMeta "validator_stake_authority" false false false; RMeta "source_token_account" true false false;
       RMeta "source_token_account_authority" false true false; RMeta "mint" false false false;
       RMeta "vault_pda" true false false; RMeta "vault" true false false; RMeta "vault_holder_rewards" true false false;
       RMeta "token_program" false false false; RMeta "rewards_program" false false false]
    (* account_infos *) ["config"; "holder_rewards_pool"; "holder_rewards_pool_token_account"; "validator_stake";
       "validator_stake_authority"; "source_token_account"; "source_token_account_authority"; "mint"; "vault_pda"; "vault";
       "vault_holder_rewards"; "token_program"; "rewards_program"]
    (* args *) ["amount"];
  RBuild "HarvestHolderRewards" 3
    (* Builder::instruction *) [("config", Must); ("holder_rewards_pool", Must); ("holder_rewards_pool_token_account", Must);
       ("vault", Must); ("vault_holder_rewards", Must); ("vault_pda", Must); ("mint", Must);
       ("token_program", Default "TokenkegQfeZyiNwAJbNbGKPFXCWuBvf9Ss623VQ5DA"); ("paladin_rewards_program", Must);
       ("system_program", Default "11111111111111111111111111111111")]
    (* accounts *) [RMeta "config" true false false; RMeta "holder_rewards_pool" true false false;
       RMeta "holder_rewards_pool_token_account" false false false; RMeta "vault" true false false;
       RMeta "vault_holder_rewards" true false false; RMeta "vault_pda" true false false; RMeta "mint" false false false;
       RMeta "token_program" false false false; RMeta "paladin_rewards_program" false false false;
       RMeta "system_program" false false false]
    (* CpiBuilder::invoke_signed *) [("config", Must); ("holder_rewards_pool", Must);
       ("holder_rewards_pool_token_account", Must); ("vault", Must); ("vault_holder_rewards", Must); ("vault_pda", Must);
       ("mint", Must); ("token_program", Must); ("paladin_rewards_program", Must); ("system_program", Must)]
    (* accounts *) [RMeta "config" true false false; RMeta "holder_rewards_pool" true false false;
       RMeta "holder_rewards_pool_token_account" false false false; RMeta "vault" true false false;
       RMeta "vault_holder_rewards" true false false; RMeta "vault_pda" true false false; RMeta "mint" false false false;
       RMeta "token_program" false false false; RMeta "paladin_rewards_program" false false false;
       RMeta "system_program" false false false]
    (* account_infos *) ["config"; "holder_rewards_pool"; "holder_rewards_pool_token_account"; "vault"; "vault_holder_rewards";
       "vault_pda"; "mint"; "token_program"; "paladin_rewards_program"; "system_program"]
    (* args *) [];
  RBuild "HarvestValidatorRewards" 4
    (* Builder::instruction *) [("config", Must); ("vault_holder_rewards", Must); ("validator_stake", Must);
       ("validator_stake_authority", Must)]
    (* accounts *) [RMeta "config" true false false; RMeta "vault_holder_rewards" false false false;
       RMeta "validator_stake" true false false; RMeta "validator_stake_authority" true false false]
    (* CpiBuilder::invoke_signed *) [("config", Must); ("vault_holder_rewards", Must); ("validator_stake", Must);
       ("validator_stake_authority", Must)]
    (* accounts *) [RMeta "config" true false false; RMeta "vault_holder_rewards" false false false;
       RMeta "validator_stake" true false false; RMeta "validator_stake_authority" true false false]
    (* account_infos *) ["config"; "vault_holder_rewards"; "validator_stake"; "validator_stake_authority"]
    (* args *) [];
  RBuild "SlashValidatorStake" 5
    (* Builder::instruction *) [("config", Must); ("validator_stake", Must); ("validator_stake_authority", Must);
       ("slash_authority", Must); ("vault", Must); ("vault_holder_rewards", Must); ("vault_authority", Must); ("mint", Must);
       ("token_program", Default "TokenkegQfeZyiNwAJbNbGKPFXCWuBvf9Ss623VQ5DA")]
    (* accounts *) [RMeta "config" true false false; RMeta "validator_stake" true false false;
       RMeta "validator_stake_authority" true false false; RMeta "slash_authority" false true false;
       RMeta "vault" true false false; RMeta "vault_holder_rewards" false false false;
       RMeta "vault_authority" false false false; RMeta "mint" true false false; RMeta "token_program" false false false]
    (* CpiBuilder::invoke_signed *) [("config", Must); ("validator_stake", Must); ("validator_stake_authority", Must);
       ("slash_authority", Must); ("vault", Must); ("vault_holder_rewards", Must); ("vault_authority", Must); ("mint", Must);
       ("token_program", Must)]
    (* accounts *) [RMeta "config" true false false; RMeta "validator_stake" true false false;
       RMeta "validator_stake_authority" true false false; RMeta "slash_authority" false true false;
       RMeta "vault" true false false; RMeta "vault_holder_rewards" false false false;
       RMeta "vault_authority" false false false; RMeta "mint" true false false; RMeta "token_program" false false false]
    (* account_infos *) ["config"; "validator_stake"; "validator_stake_authority"; "slash_authority"; "vault";
       "vault_holder_rewards"; "vault_authority"; "mint"; "token_program"]
    (* args *) ["amount"];
  RBuild "SetAuthority" 6
    (* Builder::instruction *) [("account", Must); ("authority", Must); ("new_authority", Must)]
    (* accounts *) [RMeta "account" true false false; RMeta "authority" false true false; RMeta "new_authority" false false false]
    (* CpiBuilder::invoke_signed *) [("account", Must); ("authority", Must); ("new_authority", Must)]
    (* accounts *) [RMeta "account" true false false; RMeta "authority" false true false; RMeta "new_authority" false false false]
    (* account_infos *) ["account"; "authority"; "new_authority"]
    (* args *) ["authority_type"];
  RBuild "UpdateConfig" 7
    (* Builder::instruction *) [("config", Must); ("config_authority", Must)]
    (* accounts *) [RMeta "config" true false false; RMeta "config_authority" false true false]
    (* CpiBuilder::invoke_signed *) [("config", Must); ("config_authority", Must)]
    (* accounts *) [RMeta "config" true false false; RMeta "config_authority" false true false]
    (* account_infos *) ["config"; "config_authority"]
    (* args *) ["config_field"];
  RBuild "InitializeSolStakerStake" 8
    (* Builder::instruction *) [("config", Must); ("duna_document_pda", Must); ("sol_staker_stake", Must);
       ("sol_staker_authority_override", Must); ("validator_stake", Must); ("sol_staker_native_stake", Must);
       ("sysvar_stake_history", Default "SysvarStakeHistory1111111111111111111111111");
       ("system_program", Default "11111111111111111111111111111111"); ("sol_stake_view_program", Must)]
    (* accounts *) [RMeta "config" false false false; RMeta "duna_document_pda" false false false;
       RMeta "sol_staker_stake" true false false; RMeta "sol_staker_authority_override" false false false;
       RMeta "validator_stake" true false false; RMeta "sol_staker_native_stake" false false false;
       RMeta "sysvar_stake_history" false false false; RMeta "system_program" false false false;
       RMeta "sol_stake_view_program" false false false]
    (* CpiBuilder::invoke_signed *) [("config", Must); ("duna_document_pda", Must); ("sol_staker_stake", Must);
       ("sol_staker_authority_override", Must); ("validator_stake", Must); ("sol_staker_native_stake", Must);
       ("sysvar_stake_history", Must); ("system_program", Must); ("sol_stake_view_program", Must)]
    (* accounts *) [RMeta "config" false false false; RMeta "duna_document_pda" false false false;
       RMeta "sol_staker_stake" true false false; RMeta "sol_staker_authority_override" false false false;
       RMeta "validator_stake" true false false; RMeta "sol_staker_native_stake" false false false;
       RMeta "sysvar_stake_history" false false false; RMeta "system_program" false false false;
       RMeta "sol_stake_view_program" false false false]
    (* account_infos *) ["config"; "duna_document_pda"; "sol_staker_stake"; "sol_staker_authority_override"; "validator_stake";
       "sol_staker_native_stake"; "sysvar_stake_history"; "system_program"; "sol_stake_view_program"]
    (* args *) [];
  RBuild "SolStakerStakeTokens" 9
    (* Builder::instruction *) [("config", Must); ("holder_rewards_pool", Must); ("holder_rewards_pool_token_account", Must);
       ("sol_staker_stake", Must); ("sol_staker_stake_authority", Must); ("source_token_account", Must);
       ("source_token_account_authority", Must); ("mint", Must); ("vault_pda", Must); ("vault", Must);
       ("vault_holder_rewards", Must); ("token_program", Default "TokenkegQfeZyiNwAJbNbGKPFXCWuBvf9Ss623VQ5DA");
       ("rewards_program", Must)]
    (* accounts *) [RMeta "config" true false false; RMeta "holder_rewards_pool" true false false;
       RMeta "holder_rewards_pool_token_account" true false false; RMeta "sol_staker_stake" true false false;
       RMeta "sol_staker_stake_authority" true false false; RMeta "source_token_account" true false false;
       RMeta "source_token_account_authority" false true false; RMeta "mint" false false false;
       RMeta "vault_pda" true false false; RMeta "vault" true false false; RMeta "vault_holder_rewards" true false false;
       RMeta "token_program" false false false; RMeta "rewards_program" false false false]
    (* CpiBuilder::invoke_signed *) [("config", Must); ("holder_rewards_pool", Must);
       ("holder_rewards_pool_token_account", Must); ("sol_staker_stake", Must); ("sol_staker_stake_authority", Must);
       ("source_token_account", Must); ("source_token_account_authority", Must); ("mint", Must); ("vault_pda", Must);
       ("vault", Must); ("vault_holder_rewards", Must); ("token_program", Must); ("rewards_program", Must)]
    (* accounts *) [RMeta "config" true false false; RMeta "holder_rewards_pool" true false false;
       RMeta "holder_rewards_pool_token_account" true false false; RMeta "sol_staker_stake" true false false;
       RMeta "sol_staker_stake_authority" true false false; RMeta "source_token_account" true false false;
       RMeta "source_token_account_authority" false true false; RMeta "mint" false false false;
       RMeta "vault_pda" true false false; RMeta "vault" true false false; RMeta "vault_holder_rewards" true false false;
       RMeta "token_program" false false false; RMeta "rewards_program" false false false]
    (* account_infos *) ["config"; "holder_rewards_pool"; "holder_rewards_pool_token_account"; "sol_staker_stake";
       "sol_staker_stake_authority"; "source_token_account"; "source_token_account_authority"; "mint"; "vault_pda"; "vault";
       "vault_holder_rewards"; "token_program"; "rewards_program"]
    (* args *) ["amount"];
  RBuild "HarvestSolStakerRewards" 10
    (* Builder::instruction *) [("sol_stake_view_program", Must); ("config", Must); ("vault_holder_rewards", Must);
       ("sol_staker_stake", Must); ("sol_staker_stake_authority", Must); ("sol_staker_native_stake", Must);
       ("previous_validator_stake", Must); ("previous_validator_stake_authority", Must); ("current_validator_stake", Must);
       ("current_validator_stake_authority", Must);
       ("sysvar_stake_history", Default "SysvarStakeHistory1111111111111111111111111"); ("keeper_recipient", Maybe)]
    (* accounts *) [RMeta "sol_stake_view_program" false false false; RMeta "config" true false false;
       RMeta "vault_holder_rewards" false false false; RMeta "sol_staker_stake" true false false;
       RMeta "sol_staker_stake_authority" true false false; RMeta "sol_staker_native_stake" false false false;
       RMeta "previous_validator_stake" true false false; RMeta "previous_validator_stake_authority" true false false;
       RMeta "current_validator_stake" true false false; RMeta "current_validator_stake_authority" true false false;
       RMeta "sysvar_stake_history" false false false; RMeta "keeper_recipient" true false true]
    (* CpiBuilder::invoke_signed *) [("sol_stake_view_program", Must); ("config", Must); ("vault_holder_rewards", Must);
       ("sol_staker_stake", Must); ("sol_staker_stake_authority", Must); ("sol_staker_native_stake", Must);
       ("previous_validator_stake", Must); ("previous_validator_stake_authority", Must); ("current_validator_stake", Must);
       ("current_validator_stake_authority", Must); ("sysvar_stake_history", Must); ("keeper_recipient", Maybe)]
    (* accounts *) [RMeta "sol_stake_view_program" false false false; RMeta "config" true false false;
       RMeta "vault_holder_rewards" false false false; RMeta "sol_staker_stake" true false false;
       RMeta "sol_staker_stake_authority" true false false; RMeta "sol_staker_native_stake" false false false;
       RMeta "previous_validator_stake" true false false; RMeta "previous_validator_stake_authority" true false false;
       RMeta "current_validator_stake" true false false; RMeta "current_validator_stake_authority" true false false;
       RMeta "sysvar_stake_history" false false false; RMeta "keeper_recipient" true false true]
    (* account_infos *) ["sol_stake_view_program"; "config"; "vault_holder_rewards"; "sol_staker_stake";
       "sol_staker_stake_authority"; "sol_staker_native_stake"; "previous_validator_stake";
       "previous_validator_stake_authority"; "current_validator_stake"; "current_validator_stake_authority";
       "sysvar_stake_history"; "keeper_recipient"]
    (* args *) [];
  RBuild "UnstakeTokens" 11
    (* Builder::instruction *) [("config", Must); ("holder_rewards_pool", Must); ("holder_rewards_pool_token_account", Must);
       ("stake", Must); ("stake_authority", Must); ("vault", Must); ("vault_pda", Must); ("vault_holder_rewards", Must);
       ("mint", Must); ("destination_token_account", Must);
       ("token_program", Default "TokenkegQfeZyiNwAJbNbGKPFXCWuBvf9Ss623VQ5DA"); ("rewards_program", Must)]
    (* accounts *) [RMeta "config" true false false; RMeta "holder_rewards_pool" true false false;
       RMeta "holder_rewards_pool_token_account" true false false; RMeta "stake" true false false;
       RMeta "stake_authority" true true false; RMeta "vault" true false false; RMeta "vault_pda" true false false;
       RMeta "vault_holder_rewards" true false false; RMeta "mint" false false false;
       RMeta "destination_token_account" true false false; RMeta "token_program" false false false;
       RMeta "rewards_program" false false false]
    (* CpiBuilder::invoke_signed *) [("config", Must); ("holder_rewards_pool", Must);
       ("holder_rewards_pool_token_account", Must); ("stake", Must); ("stake_authority", Must); ("vault", Must);
       ("vault_pda", Must); ("vault_holder_rewards", Must); ("mint", Must); ("destination_token_account", Must);
       ("token_program", Must); ("rewards_program", Must)]
    (* accounts *) [RMeta "config" true false false; RMeta "holder_rewards_pool" true false false;
       RMeta "holder_rewards_pool_token_account" true false false; RMeta "stake" true false false;
       RMeta "stake_authority" true true false; RMeta "vault" true false false; RMeta "vault_pda" true false false;
       RMeta "vault_holder_rewards" true false false; RMeta "mint" false false false;
       RMeta "destination_token_account" true false false; RMeta "token_program" false false false;
       RMeta "rewards_program" false false false]
    (* account_infos *) ["config"; "holder_rewards_pool"; "holder_rewards_pool_token_account"; "stake"; "stake_authority";
       "vault"; "vault_pda"; "vault_holder_rewards"; "mint"; "destination_token_account"; "token_program"; "rewards_program"]
    (* args *) ["amount"];
  RBuild "SlashSolStakerStake" 12
    (* Builder::instruction *) [("config", Must); ("sol_staker_stake", Must); ("sol_staker_stake_authority", Must);
       ("slash_authority", Must); ("mint", Must); ("vault", Must); ("vault_holder_rewards", Must); ("vault_authority", Must);
       ("token_program", Default "TokenkegQfeZyiNwAJbNbGKPFXCWuBvf9Ss623VQ5DA")]
    (* accounts *) [RMeta "config" true false false; RMeta "sol_staker_stake" true false false;
       RMeta "sol_staker_stake_authority" true false false; RMeta "slash_authority" false true false;
       RMeta "mint" true false false; RMeta "vault" true false false; RMeta "vault_holder_rewards" false false false;
       RMeta "vault_authority" false false false; RMeta "token_program" false false false]
    (* CpiBuilder::invoke_signed *) [("config", Must); ("sol_staker_stake", Must); ("sol_staker_stake_authority", Must);
       ("slash_authority", Must); ("mint", Must); ("vault", Must); ("vault_holder_rewards", Must); ("vault_authority", Must);
       ("token_program", Must)]
    (* accounts *) [RMeta "config" true false false; RMeta "sol_staker_stake" true false false;
       RMeta "sol_staker_stake_authority" true false false; RMeta "slash_authority" false true false;
       RMeta "mint" true false false; RMeta "vault" true false false; RMeta "vault_holder_rewards" false false false;
       RMeta "vault_authority" false false false; RMeta "token_program" false false false]
    (* account_infos *) ["config"; "sol_staker_stake"; "sol_staker_stake_authority"; "slash_authority"; "mint"; "vault";
       "vault_holder_rewards"; "vault_authority"; "token_program"]
    (* args *) ["amount"];
  RBuild "SolStakerMoveTokens" 13
    (* Builder::instruction *) [("config", Must); ("vault_holder_rewards", Must); ("sol_staker_authority", Must);
       ("source_sol_staker_stake", Must); ("destination_sol_staker_stake", Must)]
    (* accounts *) [RMeta "config" true false false; RMeta "vault_holder_rewards" false false false;
       RMeta "sol_staker_authority" false true false; RMeta "source_sol_staker_stake" true false false;
       RMeta "destination_sol_staker_stake" true false false]
    (* CpiBuilder::invoke_signed *) [("config", Must); ("vault_holder_rewards", Must); ("sol_staker_authority", Must);
       ("source_sol_staker_stake", Must); ("destination_sol_staker_stake", Must)]
    (* accounts *) [RMeta "config" true false false; RMeta "vault_holder_rewards" false false false;
       RMeta "sol_staker_authority" false true false; RMeta "source_sol_staker_stake" true false false;
       RMeta "destination_sol_staker_stake" true false false]
    (* account_infos *) ["config"; "vault_holder_rewards"; "sol_staker_authority"; "source_sol_staker_stake";
       "destination_sol_staker_stake"]
    (* args *) ["amount"];
  RBuild "ValidatorOverrideStakedLamports" 14
    (* Builder::instruction *) [("config", Must); ("config_authority", Must); ("validator_stake", Must);
       ("validator_stake_authority", Must); ("vault_holder_rewards", Must)]
    (* accounts *) [RMeta "config" true false false; RMeta "config_authority" false true false;
       RMeta "validator_stake" true false false; RMeta "validator_stake_authority" true false false;
       RMeta "vault_holder_rewards" true false false]
    (* CpiBuilder::invoke_signed *) [("config", Must); ("config_authority", Must); ("validator_stake", Must);
       ("validator_stake_authority", Must); ("vault_holder_rewards", Must)]
    (* accounts *) [RMeta "config" true false false; RMeta "config_authority" false true false;
       RMeta "validator_stake" true false false; RMeta "validator_stake_authority" true false false;
       RMeta "vault_holder_rewards" true false false]
    (* account_infos *) ["config"; "config_authority"; "validator_stake"; "validator_stake_authority"; "vault_holder_rewards"]
    (* args *) ["amount_min"];
  RBuild "ValidatorSyncAuthority" 15
    (* Builder::instruction *) [("config", Must); ("validator_stake", Must); ("validator_vote", Must)]
    (* accounts *) [RMeta "config" true false false; RMeta "validator_stake" true false false;
       RMeta "validator_vote" true false false]
    (* CpiBuilder::invoke_signed *) [("config", Must); ("validator_stake", Must); ("validator_vote", Must)]
    (* accounts *) [RMeta "config" true false false; RMeta "validator_stake" true false false;
       RMeta "validator_vote" true false false]
    (* account_infos *) ["config"; "validator_stake"; "validator_vote"]
    (* args *) [] ].
Definition find_builder (s : string) : option rbuild := List.find (fun i => String.eqb (rb_name i) s) rust_builders.

(** ** Arguments: [borsh] *)
Inductive rval := RU64 (n : N) | RU16 (n : N) | RKey (k : pubkey) | RHash (h : N)
| RAuthority (t : authority_type) | RField (f : config_field).
Definition borsh (v : rval) : list N :=
  match v with
  | RU64 n => borsh_u64 n | RU16 n => borsh_u16 n | RKey k => borsh_key k | RHash h => borsh_key h
  | RAuthority t => borsh_authority_type t | RField f => borsh_config_field f
  end.
Fixpoint borsh_args (args : string -> option rval) (l : list string) : result (list N) :=
  match l with
  | [] => Ok []
  | n :: r => match args n with
              | None => Panic       (* expect *)
              | Some v => let* rest := borsh_args args r in Ok (borsh v ++ rest)
              end
  end.

(** ** [*Builder] *)
Record bstate := BState { bs_acc : string -> option pubkey; bs_arg : string -> option rval; bs_rest : list account_meta }.
Definition builder_new : bstate := BState (fun _ => None) (fun _ => None) [].
Inductive setter :=
| SetAccount (n : string) (k : pubkey)              (* self.n = Some(k) *)
| SetOptional (n : string) (o : option pubkey)      (* self.n = o *)
| SetArg (n : string) (v : rval)
| AddRemaining (m : account_meta)
| AddRemainings (l : list account_meta).
Definition upd {A} (f : string -> A) (n : string) (v : A) : string -> A := fun m => if String.eqb m n then v else f m.
Definition set (b : bstate) (s : setter) : bstate :=
  match s with
  | SetAccount n k => BState (upd (bs_acc b) n (Some k)) (bs_arg b) (bs_rest b)
  | SetOptional n o => BState (upd (bs_acc b) n o) (bs_arg b) (bs_rest b)
  | SetArg n v => BState (bs_acc b) (upd (bs_arg b) n (Some v)) (bs_rest b)
  | AddRemaining m => BState (bs_acc b) (bs_arg b) (bs_rest b ++ [m])
  | AddRemainings l => BState (bs_acc b) (bs_arg b) (bs_rest b ++ l)
  end.
(** The literal addresses. *)
Definition literal (x : client_ids) (s : string) : pubkey :=
  if String.eqb s "11111111111111111111111111111111" then id_system x
  else if String.eqb s "TokenkegQfeZyiNwAJbNbGKPFXCWuBvf9Ss623VQ5DA" then id_token x
  else if String.eqb s "SysvarStakeHistory1111111111111111111111111" then id_history x
  else 0.
(** The struct of accounts: every field has a value, or [None] when optional. *)
Fixpoint fill (x : client_ids) (acc : string -> option pubkey) (l : list (string * source)) : result (list (string * option pubkey)) :=
  match l with
  | [] => Ok []
  | (n, s) :: r =>
      match s, acc n with
      | Must, None => Panic
      | Default a, None => let* rest := fill x acc r in Ok ((n, Some (literal x a)) :: rest)
      | _, v => let* rest := fill x acc r in Ok ((n, v) :: rest)
      end
  end.
Fixpoint field (l : list (string * option pubkey)) (n : string) : option pubkey :=
  match l with [] => None | (m, v) :: r => if String.eqb m n then v else field r n end.
(** [None] for an account that is not optional cannot occur; it would be a type error. *)
Definition push (x : client_ids) (l : list (string * option pubkey)) (m : rmeta) : account_meta :=
  match field l (rm_name m) with
  | Some k => if rm_write m then new k (rm_sign m) else new_readonly k (rm_sign m)
  | None => new_readonly (id_prog x) false
  end.
(** [*Builder::instruction] *)
Definition builder_instruction (x : client_ids) (i : rbuild) (b : bstate) : result (list account_meta * list N) :=
  let* l := fill x (bs_acc b) (rb_fill i) in
  let* args := borsh_args (bs_arg b) (rb_args i) in
  Ok (map (push x l) (rb_metas i) ++ bs_rest b, rb_disc i :: args).

(** ** [*CpiBuilder]: accounts are [AccountInfo]s, of which only the key matters here *)
Record cstate := CState { cs_acc : string -> option pubkey; cs_arg : string -> option rval;
       cs_rest : list (pubkey * bool * bool) }.
Definition cpi_new : cstate := CState (fun _ => None) (fun _ => None) [].
Inductive cpi_setter :=
| CpiAccount (n : string) (k : pubkey)
| CpiOptional (n : string) (o : option pubkey)
| CpiArg (n : string) (v : rval)
| CpiRemaining (k : pubkey) (is_writable is_signer : bool)   (* pushes (account, is_writable, is_signer) *)
| CpiRemainings (l : list (pubkey * bool * bool)).
Definition cpi_set (b : cstate) (s : cpi_setter) : cstate :=
  match s with
  | CpiAccount n k => CState (upd (cs_acc b) n (Some k)) (cs_arg b) (cs_rest b)
  | CpiOptional n o => CState (upd (cs_acc b) n o) (cs_arg b) (cs_rest b)
  | CpiArg n v => CState (cs_acc b) (upd (cs_arg b) n (Some v)) (cs_rest b)
  | CpiRemaining k w s => CState (cs_acc b) (cs_arg b) (cs_rest b ++ [(k, w, s)])
  | CpiRemainings l => CState (cs_acc b) (cs_arg b) (cs_rest b ++ l)
  end.
(** [AccountMeta { pubkey, is_signer, is_writable }] *)
Definition meta_of (k : pubkey) (is_signer is_writable : bool) : account_meta :=
  if is_writable then new k is_signer else new_readonly k is_signer.
(** [invoke_signed_with_remaining_accounts]: the instruction and the [account_infos] handed over.
    Of a remaining account the first flag is taken as [is_signer], the second as [is_writable]. *)
Definition cpi_invoke (x : client_ids) (program : pubkey) (i : rbuild) (b : cstate) : result (list account_meta * list N * list pubkey) :=
  let* l := fill x (cs_acc b) (rb_cpi_fill i) in
  let* args := borsh_args (cs_arg b) (rb_args i) in
  Ok (map (push x l) (rb_cpi_metas i) ++ map (fun '(k, p, q) => meta_of k p q) (cs_rest b),
      rb_disc i :: args,
      program :: flat_map (fun n => match field l n with Some k => [k] | None => [] end) (rb_cpi_infos i) ++
      map (fun '(k, _, _) => k) (cs_rest b)).
