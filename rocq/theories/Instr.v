(** Instruction data, [/repo/program/src/instruction.rs] l.803-1027. *)
From Verif Require Import Base Types Layout.

(** [AuthorityType], l.1013-1016 and [ConfigField], l.1020-1027. *)
Inductive authority_type := AuthConfig | AuthSlash.
Inductive config_field :=
| CooldownTimeSeconds (x : N)
| MaxDeactivationBasisPoints (x : N)
| SyncRewardsLamports (x : N).

(** [StakeInstruction], l.13-799. *)
Inductive instruction :=
| IInitializeConfig (slash auth : pubkey) (cooldown bps sync duna : N)
| IInitializeValidatorStake
| IValidatorStakeTokens (amount : N)
| IHarvestHolderRewards
| IHarvestValidatorRewards
| ISlashValidatorStake (amount : N)
| ISetAuthority (t : authority_type)
| IUpdateConfig (f : config_field)
| IInitializeSolStakerStake
| ISolStakerStakeTokens (amount : N)
| IHarvestSolStakerRewards
| IUnstakeTokens (amount : N)
| ISlashSolStakerStake (amount : N)
| ISolStakerMoveTokens (amount : N)
| IValidatorOverrideStakedLamports (amount_min : N)
| IValidatorSyncAuthority.

(** [StakeInstruction::pack], l.803-900. *)
Definition pack (i : instruction) : list N :=
  match i with
  | IInitializeConfig s a c b y d =>
      0 :: le_bytes 32 s ++ le_bytes 32 a ++ le_bytes 8 c ++ le_bytes 2 b ++ le_bytes 8 y ++ le_bytes 32 d
  | IInitializeValidatorStake => [1]
  | IValidatorStakeTokens x => 2 :: le_bytes 8 x
  | IHarvestHolderRewards => [3]
  | IHarvestValidatorRewards => [4]
  | ISlashValidatorStake x => 5 :: le_bytes 8 x
  | ISetAuthority AuthConfig => [6; 0]
  | ISetAuthority AuthSlash => [6; 1]
  | IUpdateConfig (CooldownTimeSeconds x) => 7 :: 0 :: le_bytes 8 x
  | IUpdateConfig (MaxDeactivationBasisPoints x) => 7 :: 1 :: le_bytes 2 x
  | IUpdateConfig (SyncRewardsLamports x) => 7 :: 2 :: le_bytes 8 x
  | IInitializeSolStakerStake => [8]
  | ISolStakerStakeTokens x => 9 :: le_bytes 8 x
  | IHarvestSolStakerRewards => [10]
  | IUnstakeTokens x => 11 :: le_bytes 8 x
  | ISlashSolStakerStake x => 12 :: le_bytes 8 x
  | ISolStakerMoveTokens x => 13 :: le_bytes 8 x
  | IValidatorOverrideStakedLamports x => 14 :: le_bytes 8 x
  | IValidatorSyncAuthority => [15]
  end.

Definition amount_ix (rest : list N) (f : N -> instruction) : result instruction :=
  if (length rest =? 8)%nat then Ok (f (num_at rest 0 8)) else Err InvalidInstructionData.

(** [StakeInstruction::unpack], l.903-1008. *)
Definition unpack (input : list N) : result instruction :=
  match input with
  | [] => Err InvalidInstructionData
  | tag :: rest =>
    match tag with
    | 0 => if (length rest =? 114)%nat
           then Ok (IInitializeConfig (num_at rest 0 32) (num_at rest 32 32) (num_at rest 64 8)
                      (num_at rest 72 2) (num_at rest 74 8) (num_at rest 82 32))
           else Err InvalidInstructionData
    | 1 => Ok IInitializeValidatorStake
    | 2 => amount_ix rest IValidatorStakeTokens
    | 3 => Ok IHarvestHolderRewards
    | 4 => Ok IHarvestValidatorRewards
    | 5 => amount_ix rest ISlashValidatorStake
    | 6 => match rest with
           | [0] => Ok (ISetAuthority AuthConfig)
           | [1] => Ok (ISetAuthority AuthSlash)
           | _ => Err InvalidInstructionData
           end
    | 7 => match rest with
           | [] => Err InvalidInstructionData
           | sub :: r =>
             match sub with
             | 0 => if (length r =? 8)%nat then Ok (IUpdateConfig (CooldownTimeSeconds (num_at r 0 8)))
                    else Err InvalidInstructionData
             | 1 => if (length r =? 2)%nat then Ok (IUpdateConfig (MaxDeactivationBasisPoints (num_at r 0 2)))
                    else Err InvalidInstructionData
             | 2 => if (length r =? 8)%nat then Ok (IUpdateConfig (SyncRewardsLamports (num_at r 0 8)))
                    else Err InvalidInstructionData
             | _ => Err InvalidInstructionData
             end
           end
    | 8 => Ok IInitializeSolStakerStake
    | 9 => amount_ix rest ISolStakerStakeTokens
    | 10 => Ok IHarvestSolStakerRewards
    | 11 => amount_ix rest IUnstakeTokens
    | 12 => amount_ix rest ISlashSolStakerStake
    | 13 => amount_ix rest ISolStakerMoveTokens
    | 14 => amount_ix rest IValidatorOverrideStakedLamports
    | 15 => Ok IValidatorSyncAuthority
    | _ => Err InvalidInstructionData
    end
  end.
