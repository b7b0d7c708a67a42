(** What else must hold, beside [SpecNeeds.v], for the instructions that call other
    programs to succeed; together the conditions are exact. *)
From Verif Require Import Base Types Layout Instr Processor Runtime History Spec SpecReward SpecLive SpecNeeds.

(** [who] may take [n] tokens from the token account: a delegate within its
    allowance, anyone else only as the owner. *)
Definition may_spend (t : token) (who n : N) : Prop :=
  (t_delegate t = Some who /\ n <= t_delegated t) \/ (t_delegate t <> Some who /\ who = t_owner t).
(** What the accounts handed to other programs have to do with the settlement made
    before: neither the config nor the stake is among them, nor is the authority,
    unless it was paid nothing. *)
Definition balanced (e : env) (w : world) (ck sk auth : pubkey) (ks : list pubkey) : Prop :=
  (forall k, In k ks -> k <> ck /\ k <> sk) /\ (In auth ks -> pending e w ck sk = 0).
(** The rewards pool's multiplication does not overflow. *)
Definition pool_computes (e : env) (cx : ctx) (w : world) (ck : pubkey) : Prop :=
  since (c_pool_acc cx mod 2 ^ 128) (holder_acc e w ck) * deposit e w ck < 2 ^ 128.

Record more_stake (e : env) (cx : ctx) (w : world) (a : stake_accts) (n : N) : Prop := {
  ms_balanced : balanced e w (st_config a) (st_stake a) (st_authority a) (st_source_auth a :: stake_cpi a);
  ms_source : forall t, dat (get w (st_source a)) = DToken t -> may_spend t (st_source_auth a) n;
  ms_vault : forall t, dat (get w (st_vault a)) = DToken t -> may_spend t (st_vault_pda a) n /\ t_amount t + n < 2 ^ 64;
  ms_ptok : forall t, dat (get w (st_ptok a)) = DToken t -> t_frozen t = false /\ t_amount t + n < 2 ^ 64;
  (* the pool can pay what it owes, and the deposit still fits *)
  ms_pool : pool_computes e cx w (st_config a) /\
    (pool_owes e w (st_config a) (c_pool_acc cx mod 2 ^ 128) <> 0 ->
     pool_owes e w (st_config a) (c_pool_acc cx mod 2 ^ 128) + e_rent e 64 <= lam (get w (st_pool a)));
  ms_deposit : deposit e w (st_config a) + n < 2 ^ 64;
}.
Record more_unstake (e : env) (cx : ctx) (w : world) (a : unstake_accts) (n : N) : Prop := {
  mu_balanced : balanced e w (un_config a) (un_stake a) (un_authority a) (unstake_cpi a);
  mu_vault : forall t, dat (get w (un_vault a)) = DToken t -> may_spend t (un_vault_pda a) n /\ t_amount t + n < 2 ^ 64;
  mu_ptok : forall t, dat (get w (un_ptok a)) = DToken t -> t_frozen t = false /\ may_spend t (un_pool a) n;
  mu_dest : forall t, dat (get w (un_dest a)) = DToken t -> t_amount t + n < 2 ^ 64;
  (* what the pool owes can be computed, though it need not be able to pay it *)
  mu_pool : pool_computes e cx w (un_config a) /\ pool_owes e w (un_config a) (c_pool_acc cx mod 2 ^ 128) < 2 ^ 64;
}.
(** Slashing calls the token program only if there is something to burn. *)
Definition more_slash (e : env) (w : world) (a : slash_accts) (n : N) (d : delegation) : Prop :=
  0 < staked d ->
  balanced e w (sl_config a) (sl_stake a) (sl_authority a) [sl_vault a; sl_mint a; sl_vault_auth a] /\
  (forall t, dat (get w (sl_vault a)) = DToken t -> may_spend t (sl_vault_auth a) (N.min n (staked d))) /\
  (forall m, dat (get w (sl_mint a)) = DMint m -> N.min n (staked d) <= m_supply m).

Definition can (e : env) (cx : ctx) (w : world) (c : call) : Prop :=
  needs e cx w c /\
  match c with
  | CValidatorStakeTokens a n | CSolStakerStakeTokens a n => more_stake e cx w a n
  | CUnstakeTokens a n => more_unstake e cx w a n
  | CSlashValidatorStake a n | CSlashSolStakerStake a n =>
      forall d, stake_of e w (sl_config a) (sl_stake a) = Some d -> more_slash e w a n d
  | _ => True
  end.
(** Accounts these instructions may write to. *)
Definition writes (c : call) : list pubkey :=
  match c with
  | CValidatorStakeTokens a _ | CSolStakerStakeTokens a _ =>
      st_config a :: st_stake a :: st_authority a ::
      [st_source a; st_vault a; st_pool a; st_ptok a; st_vhr a; st_vault_pda a]
  | CUnstakeTokens a _ => un_config a :: un_stake a :: un_authority a :: un_dest a ::
      [un_pool a; un_ptok a; un_vhr a; un_vault a; un_vault_pda a]
  | CSlashValidatorStake a _ | CSlashSolStakerStake a _ =>
      [sl_config a; sl_stake a; sl_authority a; sl_vault a; sl_mint a]
  | _ => []
  end.
(** Side conditions: no account plays two of these roles. *)
Definition ordinary (c : call) : Prop :=
  match c with
  | CValidatorStakeTokens a _ | CSolStakerStakeTokens a _ =>
      st_authority a <> st_config a /\ st_source a <> st_vault a /\ st_source a <> st_ptok a
  | CUnstakeTokens a _ => un_authority a <> un_config a /\ un_dest a <> un_ptok a
  | CSlashValidatorStake a _ | CSlashSolStakerStake a _ => sl_authority a <> sl_config a
  | _ => False
  end.
