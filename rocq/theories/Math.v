(** Reward and limit arithmetic, [/repo/program/src/state/mod.rs] l.19-213. *)
From Verif Require Import Base.

(** l.20 *)
Notation SCALE := 1000000000000000000.
(** l.23 *)
Notation MAX_BPS := 10000.
(** l.27 and l.30 *)
Definition STAKE_FACTOR : N := 13.
Definition STAKE_SCALING_FACTOR : N := 10.

(** [calculate_eligible_rewards], l.160-182. *)
Definition calculate_eligible_rewards (current last balance : N) : result N :=
  let marginal := wsub128 current last in
  if marginal =? 0 then Ok 0
  else let* p := mul128 marginal balance in to64 (p / SCALE).

(** [calculate_stake_rewards_per_token], l.184-199. *)
Definition calculate_stake_rewards_per_token (rewards stake_amount : N) : result N :=
  if stake_amount =? 0 then Ok 0
  else let* p := mul128 rewards SCALE in Ok (p / stake_amount).

(** [calculate_maximum_stake_for_lamports_amount], l.201-213. *)
Definition calculate_maximum_stake (lamports : N) : result N :=
  if lamports =? 0 then Ok 0
  else let* p := mul128 lamports STAKE_FACTOR in to64 (p / STAKE_SCALING_FACTOR).

(** [max_deactivation_amount], [/repo/program/src/processor/unstake_tokens.rs] l.160-164. *)
Definition max_deactivation_amount (staked bps : N) : result N :=
  let* p := mul128 staked bps in to64 (p / MAX_BPS).
