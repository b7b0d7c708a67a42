(** Vocabulary: when a number does not fit.  [overflows e cx w c] is what must be
    the case, in the accounts as they were, when the call [c] answers
    [ArithmeticOverflow]. *)
From Verif Require Import Base Types Layout Instr Processor Runtime History Spec SpecReward SpecLive.

(** The config holds less than the stake accounts [ks] are owed. *)
Definition short (e : env) (w : world) (ck : pubkey) (ks : list pubkey) : Prop :=
  lam (get w ck) < sum_over (pending e w ck) (nodup N.eq_dec ks).
(** The stake at [k] is of a validator, of a SOL staker, with property [P]. *)
Definition of_val (e : env) (w : world) (k : pubkey) (P : vstake -> Prop) : Prop := exists v, val_at e w k v /\ P v.
Definition of_sol (e : env) (w : world) (k : pubkey) (P : sstake -> Prop) : Prop := exists s, sol_at e w k s /\ P s.
(** Its limit on tokens, or the limit for [l] lamports, does not fit 64 bits. *)
Definition boundless (l : N) : Prop := 2 ^ 64 <= cap l.
Definition limitless (e : env) (w : world) (k : pubkey) : Prop :=
  of_val e w k (fun v => boundless (N.max (v_total v) (v_min v))) \/ of_sol e w k (fun s => boundless (s_lamports s)).

Definition overflows (e : env) (cx : ctx) (w : world) (c : call) : Prop :=
  match c with
  | CInitializeSolStakerStake a => of_val e w (is_val a) (fun v =>
      exists vw, c_view cx = Some vw /\ 2 ^ 64 <= v_total v + vw_effective vw)
  | CValidatorStakeTokens a n | CSolStakerStakeTokens a n =>
      In (st_config a) [st_authority a] \/ short e w (st_config a) [st_stake a] \/ limitless e w (st_stake a) \/
      2 ^ 64 <= deposit e w (st_config a) + n
  | CHarvestValidatorRewards a =>
      In (hv_config a) [hv_authority a] \/ short e w (hv_config a) [hv_stake a]
  | CHarvestSolStakerRewards a =>
      In (hs_config a) [hs_authority a; hs_prev_auth a; hs_cur_auth a] \/ hs_keeper a = Some (hs_config a) \/
      short e w (hs_config a) [hs_stake a; hs_prev a; hs_cur a] \/
      of_sol e w (hs_stake a) (fun s => of_val e w (hs_prev a) (fun v => boundless (N.max (v_total v - s_lamports s) (v_min v)))) \/
      exists vw, c_view cx = Some vw /\ (boundless (vw_effective vw) \/
        of_val e w (hs_cur a) (fun v => boundless (N.max (v_total v + vw_effective vw) (v_min v))))
  | CUnstakeTokens a _ =>
      In (un_config a) [un_authority a] \/ short e w (un_config a) [un_stake a] \/ limitless e w (un_stake a)
  | CSlashValidatorStake a _ | CSlashSolStakerStake a _ =>
      In (sl_config a) [sl_authority a] \/ short e w (sl_config a) [sl_stake a] \/ limitless e w (sl_stake a)
  | CSolStakerMoveTokens a n =>
      In (mv_config a) [mv_authority a] \/ short e w (mv_config a) [mv_source a; mv_dest a] \/
      limitless e w (mv_source a) \/ limitless e w (mv_dest a) \/ of_sol e w (mv_source a) (fun s => staked (s_del s) < n)
  | CValidatorOverride a n =>
      In (ov_config a) [ov_stake_auth a] \/ short e w (ov_config a) [ov_stake a] \/
      of_val e w (ov_stake a) (fun v => boundless (N.max (v_total v) n))
  | _ => False
  end.

(** Amounts of SOL below a thousand million (there are fewer), in the accounts
    and in the view program's answer. *)
Definition modest (e : env) (cx : ctx) (w : world) : Prop :=
  (forall k v, val_at e w k v -> v_total v <= 10 ^ 18 /\ v_min v <= 10 ^ 18) /\
  (forall k s, sol_at e w k s -> s_lamports s <= 10 ^ 18) /\
  (forall vw, c_view cx = Some vw -> vw_effective vw <= 10 ^ 18).
(** The stake accounts a call settles, and whom it pays. *)
Definition settled_stakes (c : call) : list pubkey :=
  match c with
  | CValidatorStakeTokens a _ | CSolStakerStakeTokens a _ => [st_stake a]
  | CHarvestValidatorRewards a => [hv_stake a]
  | CHarvestSolStakerRewards a => [hs_stake a; hs_prev a; hs_cur a]
  | CUnstakeTokens a _ => [un_stake a]
  | CSlashValidatorStake a _ | CSlashSolStakerStake a _ => [sl_stake a]
  | CSolStakerMoveTokens a _ => [mv_source a; mv_dest a]
  | CValidatorOverride a _ => [ov_stake a]
  | _ => []
  end.
Definition payees (c : call) : list pubkey :=
  match c with
  | CValidatorStakeTokens a _ | CSolStakerStakeTokens a _ => [st_authority a]
  | CHarvestValidatorRewards a => [hv_authority a]
  | CHarvestSolStakerRewards a => [hs_authority a; hs_prev_auth a; hs_cur_auth a] ++ match hs_keeper a with Some k => [k] | None => [] end
  | CUnstakeTokens a _ => [un_authority a]
  | CSlashValidatorStake a _ | CSlashSolStakerStake a _ => [sl_authority a]
  | CSolStakerMoveTokens a _ => [mv_authority a]
  | CValidatorOverride a _ => [ov_stake_auth a]
  | _ => []
  end.
(** An amount in the call that no one has. *)
Definition excessive (e : env) (w : world) (c : call) : Prop :=
  match c with
  | CValidatorStakeTokens a n | CSolStakerStakeTokens a n => 2 ^ 64 <= deposit e w (st_config a) + n
  | CSolStakerMoveTokens a n => of_sol e w (mv_source a) (fun s => staked (s_del s) < n)
  | CValidatorOverride _ n => 10 ^ 18 < n
  | _ => False
  end.
