(** What a config owes to all its stake accounts together. *)
From Verif Require Import Base Types Processor Runtime History Spec SpecReward.

(** Sum of the claims of all stake accounts of a config, in lamports. *)
Definition claims (e : env) (w : world) (ck : pubkey) : N :=
  match dat (get w ck) with
  | DConfig c => sum_of e w ck (fun d => stake_claim w ck c d + holder_claim e w ck d)
  | _ => 0
  end.
(** Lamports the program can draw on for them. *)
Definition funds (e : env) (w : world) (ck : pubkey) : N := lam (get w ck) + lam (get w (e_vault e ck)).

(** Allowance, in units of [10^-18] lamports, for an instruction that settles the
    vault with the rewards pool: one lamport for the rounding of the payment, and
    for a deposit of [n] tokens what the accumulator's advance credits to them. *)
Definition settles_vault (e : env) (ck : pubkey) (w : world) (cx : ctx) (n : N) : N :=
  if c_pool_acc cx mod 2 ^ 128 =? holder_acc e w ck then 0
  else 10 ^ 18 + n * since (c_pool_acc cx mod 2 ^ 128) (holder_acc e w ck).
Definition allowance (e : env) (ck : pubkey) (w : world) (ev : event) : N :=
  match ev with
  | Do cx (CHarvestHolderRewards a) => if hh_config a =? ck then settles_vault e ck w cx 0 else 0
  | Do cx (CUnstakeTokens a _) => if un_config a =? ck then settles_vault e ck w cx 0 else 0
  | Do cx (CValidatorStakeTokens a n) | Do cx (CSolStakerStakeTokens a n) =>
      if st_config a =? ck then settles_vault e ck w cx n else 0
  | _ => 0
  end.

(** A history with the sum of its allowances, in which no keeper payment goes to
    the config itself. *)
Inductive covered (e : env) (ck : pubkey) : world -> world -> N -> Prop :=
| covered_here w : covered e ck w w 0
| covered_on w w1 n ev w2 : covered e ck w w1 n -> step e w1 ev w2 ->
    (forall cx c, ev = Do cx c -> keeper_in c <> Some ck) ->
    covered e ck w w2 (n + allowance e ck w1 ev).

(** A history in which tokens are only deposited while the vault is settled with
    the rewards pool, and the number of instructions that settled it. *)
Definition settlement (e : env) (ck : pubkey) (ev : event) : N :=
  match ev with
  | Do _ (CHarvestHolderRewards a) => if hh_config a =? ck then 1 else 0
  | Do _ (CUnstakeTokens a _) => if un_config a =? ck then 1 else 0
  | _ => 0
  end.
Definition deposits_settled (e : env) (ck : pubkey) (w : world) (ev : event) : Prop :=
  match ev with
  | Do cx (CValidatorStakeTokens a _) | Do cx (CSolStakerStakeTokens a _) =>
      st_config a = ck -> c_pool_acc cx mod 2 ^ 128 = holder_acc e w ck
  | _ => True
  end.
Inductive tended (e : env) (ck : pubkey) : world -> world -> N -> Prop :=
| tended_here w : tended e ck w w 0
| tended_on w w1 n ev w2 : tended e ck w w1 n -> step e w1 ev w2 -> deposits_settled e ck w1 ev ->
    (forall cx c, ev = Do cx c -> keeper_in c <> Some ck) ->
    tended e ck w w2 (n + settlement e ck ev).
