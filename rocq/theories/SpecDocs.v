(** What README.md and the comments in the program's source promise, in the
    words of the model. *)
From Verif Require Import Base Types Layout Instr Processor Runtime History Spec.

(** README.md l.42 and instruction.rs l.97, l.422: "the maximum amount of tokens that
    a SOL staker is allowed to stake" is 1.3 times the SOL; the same for validators. *)
Definition staker_limit (e : env) (w : world) : Prop :=
  forall k s, sol_at e w k s -> staked (s_del s) <= 13 * s_lamports s / 10.
Definition validator_limit (e : env) (w : world) : Prop :=
  forall k v, val_at e w k v -> staked (v_del v) <= 13 * N.max (v_total v) (v_min v) / 10.
(** sol_staker_stake.rs l.9-14, validator_stake.rs l.8-12: half of that. *)
Definition half_limit (e : env) (w : world) : Prop :=
  forall k s, sol_at e w k s -> effective (s_del s) <= 13 * s_lamports s / 20.
(** README.md l.11, l.26: "the Config tracks the total of staked tokens". *)
Definition config_tracks_staked (e : env) (w : world) : Prop :=
  forall k c, config_at e w k c -> cfg_effective c = sum_of e w k staked.
(** config.rs l.29: the cooldown "must pass before the stake is ... able to be
    withdrawn": of two token movements of a stake, staking and then unstaking, the
    second comes at least the cooldown after the first. *)
Definition cooldown_first (e : env) (w : world) : Prop :=
  forall cx1 cx2 a1 a2 n1 n2 w1 w2 c,
    run e cx1 (CSolStakerStakeTokens a1 n1) w = Ok w1 -> run e cx2 (CUnstakeTokens a2 n2) w1 = Ok w2 ->
    un_stake a2 = st_stake a1 -> config_at e w (st_config a1) c -> un_config a2 = st_config a1 ->
    c_now cx1 + cfg_cooldown c <= c_now cx2.
(** The stake account whose tokens an instruction moves. *)
Definition token_stakes (c : call) : list pubkey :=
  match c with
  | CSolStakerStakeTokens a _ | CValidatorStakeTokens a _ => [st_stake a]
  | CUnstakeTokens a _ => [un_stake a]
  | CSlashSolStakerStake a _ | CSlashValidatorStake a _ => [sl_stake a]
  | CSolStakerMoveTokens a _ => [mv_source a; mv_dest a]
  | _ => []
  end.
(** instruction.rs l.64, l.369: "Anybody can create the stake account". *)
Definition creation (c : call) : bool :=
  match c with CInitializeConfig _ _ _ _ _ _ _ | CInitializeValidatorStake _ | CInitializeSolStakerStake _ => true | _ => false end.
