(** When an instruction may abort instead of returning an error. *)
From Verif Require Import Base Types Layout Instr Processor Runtime History Spec SpecReward SpecLive.

(** The config an instruction works on, the stake accounts whose rewards it
    settles, and the accounts it pays them to. *)
Definition config_of (c : call) : pubkey :=
  match c with
  | CInitializeConfig a _ _ _ _ _ _ => ic_config a
  | CInitializeValidatorStake a => iv_config a
  | CValidatorStakeTokens a _ | CSolStakerStakeTokens a _ => st_config a
  | CHarvestHolderRewards a => hh_config a
  | CHarvestValidatorRewards a => hv_config a
  | CSlashValidatorStake a _ | CSlashSolStakerStake a _ => sl_config a
  | CSetAuthority a _ => sa_account a
  | CUpdateConfig a _ => uc_config a
  | CInitializeSolStakerStake a => is_config a
  | CHarvestSolStakerRewards a => hs_config a
  | CUnstakeTokens a _ => un_config a
  | CSolStakerMoveTokens a _ => mv_config a
  | CValidatorOverride a _ => ov_config a
  | CValidatorSyncAuthority a => sy_config a
  end.
Definition settled_by (e : env) (cx : ctx) (w : world) (c : call) (k : pubkey) : Prop :=
  match c with
  | CValidatorStakeTokens a _ | CSolStakerStakeTokens a _ => k = st_stake a
  | CHarvestValidatorRewards a => k = hv_stake a
  | CSlashValidatorStake a _ | CSlashSolStakerStake a _ => k = sl_stake a
  | CHarvestSolStakerRewards a => exists s vw, sol_at e w (hs_stake a) s /\ c_view cx = Some vw /\
      settles_with e w (hs_config a) (hs_stake a) (vote (s_del s)) (vw_vote vw) k
  | CUnstakeTokens a _ => k = un_stake a
  | CSolStakerMoveTokens a _ => k = mv_source a \/ k = mv_dest a
  | CValidatorOverride a _ => k = ov_stake a
  | _ => False
  end.
Definition paid_by (c : call) (k : pubkey) : Prop :=
  match c with
  | CValidatorStakeTokens a _ | CSolStakerStakeTokens a _ => k = st_authority a
  | CHarvestValidatorRewards a => k = hv_authority a
  | CSlashValidatorStake a _ | CSlashSolStakerStake a _ => k = sl_authority a
  | CHarvestSolStakerRewards a => k = hs_authority a \/ k = hs_prev_auth a \/ k = hs_cur_auth a \/ hs_keeper a = Some k
  | CUnstakeTokens a _ => k = un_authority a
  | CSolStakerMoveTokens a _ => k = mv_authority a
  | CValidatorOverride a _ => k = ov_stake_auth a
  | _ => False
  end.
