(** Entry point: instruction data and account list to handler call, and the
    runtime's checks around one instruction. *)
From Verif Require Import Base Types Layout Instr Math External Processor.

(** One instruction with its accounts named. *)
Inductive call :=
| CInitializeConfig (a : init_config_accts) (slash auth cooldown bps sync duna : N)
| CInitializeValidatorStake (a : init_val_accts)
| CValidatorStakeTokens (a : stake_accts) (amount : N)
| CHarvestHolderRewards (a : harvest_holder_accts)
| CHarvestValidatorRewards (a : harvest_val_accts)
| CSlashValidatorStake (a : slash_accts) (amount : N)
| CSetAuthority (a : set_auth_accts) (t : authority_type)
| CUpdateConfig (a : update_config_accts) (f : config_field)
| CInitializeSolStakerStake (a : init_sol_accts)
| CSolStakerStakeTokens (a : stake_accts) (amount : N)
| CHarvestSolStakerRewards (a : harvest_sol_accts)
| CUnstakeTokens (a : unstake_accts) (amount : N)
| CSlashSolStakerStake (a : slash_accts) (amount : N)
| CSolStakerMoveTokens (a : move_accts) (amount : N)
| CValidatorOverride (a : override_accts) (amount_min : N)
| CValidatorSyncAuthority (a : sync_auth_accts).

(** The handler dispatch of [processor/mod.rs] l.50-193. *)
Definition handler (e : env) (cx : ctx) (c : call) (w : world) : result world :=
  match c with
  | CInitializeConfig a s au cd b sy d => initialize_config e cx a s au cd b sy d w
  | CInitializeValidatorStake a => initialize_validator_stake e cx a w
  | CValidatorStakeTokens a n => validator_stake_tokens e cx a n w
  | CHarvestHolderRewards a => harvest_holder_rewards e cx a w
  | CHarvestValidatorRewards a => harvest_validator_rewards e cx a w
  | CSlashValidatorStake a n => slash_validator_stake e cx a n w
  | CSetAuthority a t => set_authority_ix e cx a t w
  | CUpdateConfig a f => update_config e cx a f w
  | CInitializeSolStakerStake a => initialize_sol_staker_stake e cx a w
  | CSolStakerStakeTokens a n => sol_staker_stake_tokens e cx a n w
  | CHarvestSolStakerRewards a => harvest_sol_staker_rewards e cx a w
  | CUnstakeTokens a n => unstake_tokens e cx a n w
  | CSlashSolStakerStake a n => slash_sol_staker_stake e cx a n w
  | CSolStakerMoveTokens a n => sol_staker_move_tokens e cx a n w
  | CValidatorOverride a n => validator_override e cx a n w
  | CValidatorSyncAuthority a => validator_sync_authority e cx a w
  end.

(** All lamports in the world. *)
Definition total_lamports (w : world) : N := map_fold (fun _ a s => lam a + s) 0 w.

(** After the instruction the runtime requires that no lamports were created or
    destroyed and that only accounts passed as writable changed.  (The rule that
    only the owner changes data or takes lamports is met by the handlers' owner
    checks, or modelled where they lack one.) *)
Definition runtime_check (cx : ctx) (w w' : world) : result unit :=
  let* _ := require (total_lamports w =? total_lamports w') UnbalancedInstruction in
  require (forallb (fun k => bool_decide (get w k = get w' k) || writable cx k)
                   (map fst (map_to_list w ++ map_to_list w')))
          ReadonlyAccountModified.

(** One instruction as executed by the runtime. On any error nothing changes. *)
Definition run (e : env) (cx : ctx) (c : call) (w : world) : result world :=
  let* w' := handler e cx c w in
  let* _ := runtime_check cx w w' in
  Ok w'.

(** [*Accounts::context(accounts)] (shank): too few accounts is
    [NotEnoughAccountKeys]; extra ones are ignored. *)
Definition need (n : nat) (ks : list pubkey) : result unit :=
  require (n <=? length ks)%nat NotEnoughAccountKeys.
Definition key (ks : list pubkey) (i : nat) : pubkey := nth i ks 0.

(** Account order as in [instruction.rs] l.13-799. An optional account is absent
    when the program's own id is passed in its place. *)
Definition accounts_of (e : env) (ks : list pubkey) (i : instruction) : result call :=
  let k := key ks in
  match i with
  | IInitializeConfig s a c b y d =>
      let* _ := need 7 ks in
      Ok (CInitializeConfig (InitConfigA (k 0%nat) (k 1%nat) (k 2%nat) (k 3%nat) (k 4%nat)) s a c b y d)
  | IInitializeValidatorStake =>
      let* _ := need 5 ks in
      Ok (CInitializeValidatorStake (InitValA (k 0%nat) (k 1%nat) (k 2%nat) (k 3%nat)))
  | IValidatorStakeTokens n =>
      let* _ := need 13 ks in
      Ok (CValidatorStakeTokens
            (StakeA (k 0%nat) (k 1%nat) (k 2%nat) (k 3%nat) (k 4%nat) (k 5%nat) (k 6%nat) (k 7%nat)
                    (k 8%nat) (k 9%nat) (k 10%nat) (k 11%nat)) n)
  | IHarvestHolderRewards =>
      let* _ := need 10 ks in
      Ok (CHarvestHolderRewards
            (HarvestHolderA (k 0%nat) (k 1%nat) (k 2%nat) (k 3%nat) (k 4%nat) (k 5%nat) (k 6%nat)))
  | IHarvestValidatorRewards =>
      let* _ := need 4 ks in
      Ok (CHarvestValidatorRewards (HarvestValA (k 0%nat) (k 1%nat) (k 2%nat) (k 3%nat)))
  | ISlashValidatorStake n =>
      let* _ := need 9 ks in
      Ok (CSlashValidatorStake
            (SlashA (k 0%nat) (k 1%nat) (k 2%nat) (k 3%nat) (k 4%nat) (k 5%nat) (k 6%nat) (k 7%nat)
                    (k 8%nat)) n)
  | ISetAuthority t =>
      let* _ := need 3 ks in
      Ok (CSetAuthority (SetAuthA (k 0%nat) (k 1%nat) (k 2%nat)) t)
  | IUpdateConfig f =>
      let* _ := need 2 ks in
      Ok (CUpdateConfig (UpdateConfigA (k 0%nat) (k 1%nat)) f)
  | IInitializeSolStakerStake =>
      let* _ := need 9 ks in
      Ok (CInitializeSolStakerStake
            (InitSolA (k 0%nat) (k 1%nat) (k 2%nat) (k 3%nat) (k 4%nat) (k 5%nat) (k 8%nat)))
  | ISolStakerStakeTokens n =>
      let* _ := need 13 ks in
      Ok (CSolStakerStakeTokens
            (StakeA (k 0%nat) (k 1%nat) (k 2%nat) (k 3%nat) (k 4%nat) (k 5%nat) (k 6%nat) (k 7%nat)
                    (k 8%nat) (k 9%nat) (k 10%nat) (k 11%nat)) n)
  | IHarvestSolStakerRewards =>
      let* _ := need 12 ks in
      Ok (CHarvestSolStakerRewards
            (HarvestSolA (k 0%nat) (k 1%nat) (k 2%nat) (k 3%nat) (k 4%nat) (k 5%nat) (k 6%nat)
                         (k 7%nat) (k 8%nat) (k 9%nat)
                         (if k 11%nat =? e_prog e then None else Some (k 11%nat))))
  | IUnstakeTokens n =>
      let* _ := need 12 ks in
      Ok (CUnstakeTokens
            (UnstakeA (k 0%nat) (k 1%nat) (k 2%nat) (k 3%nat) (k 4%nat) (k 5%nat) (k 6%nat) (k 7%nat)
                      (k 8%nat) (k 9%nat) (k 10%nat)) n)
  | ISlashSolStakerStake n =>
      let* _ := need 9 ks in
      Ok (CSlashSolStakerStake
            (SlashA (k 0%nat) (k 1%nat) (k 2%nat) (k 3%nat) (k 5%nat) (k 6%nat) (k 7%nat) (k 4%nat)
                    (k 8%nat)) n)
  | ISolStakerMoveTokens n =>
      let* _ := need 5 ks in
      Ok (CSolStakerMoveTokens (MoveA (k 0%nat) (k 1%nat) (k 2%nat) (k 3%nat) (k 4%nat)) n)
  | IValidatorOverrideStakedLamports n =>
      let* _ := need 5 ks in
      Ok (CValidatorOverride (OverrideA (k 0%nat) (k 1%nat) (k 2%nat) (k 3%nat) (k 4%nat)) n)
  | IValidatorSyncAuthority =>
      let* _ := need 3 ks in
      Ok (CValidatorSyncAuthority (SyncAuthA (k 0%nat) (k 1%nat) (k 2%nat)))
  end.

(** [process_instruction], [entrypoint.rs] l.9-20 and [processor/mod.rs] l.50-193. *)
Definition process_instruction (e : env) (cx : ctx) (ks : list pubkey) (data : list N) (w : world)
    : result world :=
  let* i := unpack data in
  let* c := accounts_of e ks i in
  run e cx c w.
