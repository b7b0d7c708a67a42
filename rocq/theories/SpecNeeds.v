(** What must hold of the accounts handed to an instruction for it to succeed. *)
From Verif Require Import Base Types Layout Instr Processor Runtime History Spec SpecReward SpecLive.

(** The stake account [k] of config [ck] is settled with [auth]: its authority, the
    vault's holder account exists, and the config can pay and stay rent exempt. *)
Definition can_settle (e : env) (w : world) (ck k auth vhr : pubkey) (d : delegation) : Prop :=
  stake_of e w ck k = Some d /\ auth = authority d /\
  vhr = e_holder e (e_vault e ck) /\ (exists h, dat (get w vhr) = DHolder h) /\
  pending e w ck k + e_rent e CONFIG_LEN <= lam (get w ck).

(** A token account of mint [m] that is not frozen, and who may spend from it. *)
Definition usable (e : env) (w : world) (k m : pubkey) (t : token) : Prop :=
  own (get w k) = e_token e /\ dat (get w k) = DToken t /\ t_mint t = m /\ t_frozen t = false.
Definition spender (t : token) (who : pubkey) : Prop := who = t_owner t \/ t_delegate t = Some who.
(** The mint, the rewards pool of the mint with its token account, and the vault's
    holder account, as the rewards program wants them. *)
Definition pool_accounts (e : env) (w : world) (pool ptok vhr mnt : pubkey) : Prop :=
  pool = e_pool e mnt /\ own (get w pool) = e_rewards e /\ own (get w vhr) = e_rewards e /\
  exists p, own (get w ptok) = e_token e /\ dat (get w ptok) = DToken p /\ t_owner p = pool /\ t_mint p = mnt.
Definition is_mint (e : env) (w : world) (k : pubkey) : Prop :=
  own (get w k) = e_token e /\ exists m, dat (get w k) = DMint m.

(** The vault of the config is a token account of mint [m] held by the vault address. *)
Definition the_vault (e : env) (w : world) (ck vault pda m : pubkey) (c : config) : Prop :=
  vault = cfg_vault c /\ pda = e_vault e ck /\
  exists t, usable e w vault m t /\ t_owner t = pda.

Record needs_stake (e : env) (cx : ctx) (w : world) (a : stake_accts) (n : N) (c : config) (d : delegation) : Prop := {
  ns_config : config_at e w (st_config a) c;
  ns_stake : can_settle e w (st_config a) (st_stake a) (st_authority a) (st_vhr a) d;
  ns_cap : cap_fits (dat (get w (st_stake a)));
  ns_vault : the_vault e w (st_config a) (st_vault a) (st_vault_pda a) (st_mint a) c;
  ns_mint : is_mint e w (st_mint a);
  ns_pool : pool_accounts e w (st_pool a) (st_ptok a) (st_vhr a) (st_mint a);
  ns_tokprog : st_tokprog a = e_token e;
  (* the wallet paying signs, may spend and holds the tokens *)
  ns_source : signed cx (st_source_auth a) = true /\
    exists t, usable e w (st_source a) (st_mint a) t /\ spender t (st_source_auth a) /\ n <= t_amount t;
  ns_amount : 0 < n;
}.
Record needs_unstake (e : env) (cx : ctx) (w : world) (a : unstake_accts) (n : N) (c : config) (d : delegation) : Prop := {
  nu_config : config_at e w (un_config a) c;
  nu_stake : can_settle e w (un_config a) (un_stake a) (un_authority a) (un_vhr a) d;
  nu_cap : cap_fits (dat (get w (un_stake a)));
  nu_signed : signed cx (un_authority a) = true;
  nu_vault : the_vault e w (un_config a) (un_vault a) (un_vault_pda a) (un_mint a) c;
  nu_mint : is_mint e w (un_mint a);
  nu_pool : pool_accounts e w (un_pool a) (un_ptok a) (un_vhr a) (un_mint a);
  nu_tokprog : un_tokprog a = e_token e;
  (* the rewards pool still holds the whole deposit of the vault *)
  nu_deposit : n <= deposit e w (un_config a) /\ 0 < deposit e w (un_config a) /\
    exists p, dat (get w (un_ptok a)) = DToken p /\ deposit e w (un_config a) <= t_amount p;
  nu_dest : un_dest a <> un_vault a /\ exists t, usable e w (un_dest a) (un_mint a) t;
  nu_amount : n <= staked d /\ n <= staked d * cfg_bps c / 10000 /\ cooldown d <= c_now cx;
}.
Record needs_slash (e : env) (cx : ctx) (w : world) (a : slash_accts) (n : N) (c : config) (d : delegation) : Prop := {
  nx_config : config_at e w (sl_config a) c;
  nx_stake : can_settle e w (sl_config a) (sl_stake a) (sl_authority a) (sl_vhr a) d;
  nx_cap : cap_fits (dat (get w (sl_stake a)));
  nx_slash : sl_slash a = cfg_slash c /\ cfg_slash c <> 0 /\ signed cx (sl_slash a) = true;
  nx_vault : sl_vault a = cfg_vault c /\ sl_vault_auth a = e_vault e (sl_config a) /\
    exists t, dat (get w (sl_vault a)) = DToken t /\ t_mint t = sl_mint a;
  nx_tokprog : sl_tokprog a = e_token e;
  nx_amount : 0 < n;
  (* tokens to burn are in the vault and at the vault address's disposal *)
  nx_burn : 0 < staked d -> is_mint e w (sl_mint a) /\
    exists t, usable e w (sl_vault a) (sl_mint a) t /\ spender t (sl_vault_auth a) /\ N.min n (staked d) <= t_amount t;
}.
Record needs_move (e : env) (cx : ctx) (w : world) (a : move_accts) (n : N) (s t : sstake) : Prop := {
  nm_config : exists c, config_at e w (mv_config a) c;
  nm_source : sol_at e w (mv_source a) s /\ can_settle e w (mv_config a) (mv_source a) (mv_authority a) (mv_vhr a) (s_del s);
  nm_dest : sol_at e w (mv_dest a) t /\ stake_of e w (mv_config a) (mv_dest a) = Some (s_del t) /\
    mv_authority a = authority (s_del t);
  nm_two : mv_source a <> mv_dest a;
  nm_signed : signed cx (mv_authority a) = true;
  nm_amount : n <= staked (s_del s);
  nm_cap : cap (s_lamports s) < 2 ^ 64 /\ cap (s_lamports t) < 2 ^ 64;
}.
Record needs_override (e : env) (cx : ctx) (w : world) (a : override_accts) (n : N) (c : config) (v : vstake) : Prop := {
  no_config : config_at e w (ov_config a) c;
  no_signed : ov_config_auth a = cfg_authority c /\ cfg_authority c <> 0 /\ signed cx (ov_config_auth a) = true;
  no_stake : val_at e w (ov_stake a) v /\ can_settle e w (ov_config a) (ov_stake a) (ov_stake_auth a) (ov_vhr a) (v_del v);
  no_cap : cap (N.max (v_total v) n) < 2 ^ 64;
}.
Record needs_harvest_holder (e : env) (cx : ctx) (w : world) (a : harvest_holder_accts) (c : config) : Prop := {
  nk_config : config_at e w (hh_config a) c;
  nk_vault : hh_vault a = cfg_vault c /\ hh_vault_pda a = e_vault e (hh_config a) /\
    exists t, dat (get w (hh_vault a)) = DToken t /\ t_mint t = hh_mint a;
  nk_vhr : hh_vhr a = e_holder e (e_vault e (hh_config a)) /\ exists h, dat (get w (hh_vhr a)) = DHolder h;
  nk_pool : pool_accounts e w (hh_pool a) (hh_ptok a) (hh_vhr a) (hh_mint a);
  (* the pool's arithmetic does not overflow and it can pay *)
  nk_reward : since (c_pool_acc cx mod 2 ^ 128) (holder_acc e w (hh_config a)) * deposit e w (hh_config a) < 2 ^ 128 /\
    (pool_owes e w (hh_config a) (c_pool_acc cx mod 2 ^ 128) <> 0 ->
     pool_owes e w (hh_config a) (c_pool_acc cx mod 2 ^ 128) + e_rent e 64 <= lam (get w (hh_pool a)));
  (* the vault address is left with its rent minimum *)
  nk_rent : e_rent e 0 <= lam (get w (hh_vault_pda a)) + pool_owes e w (hh_config a) (c_pool_acc cx mod 2 ^ 128);
  (* and what is above it can be taken because the address belongs to the program *)
  nk_owner : own (get w (hh_vault_pda a)) = e_prog e \/
    lam (get w (hh_vault_pda a)) + pool_owes e w (hh_config a) (c_pool_acc cx mod 2 ^ 128) = e_rent e 0;
}.
(** The harvest of a SOL staker's rewards; when its delegation changed, a keeper is
    named, the validator it leaves is given, and so is the one it joins. *)
Record needs_harvest_sol (e : env) (cx : ctx) (w : world) (a : harvest_sol_accts) (s : sstake) (vw : view) : Prop := {
  nh_config : exists c, config_at e w (hs_config a) c;
  nh_stake : sol_at e w (hs_stake a) s /\ can_settle e w (hs_config a) (hs_stake a) (hs_authority a) (hs_vhr a) (s_del s);
  nh_native : hs_native a = s_native s;
  nh_view : hs_view a = e_view e /\ c_view cx = Some vw;
  nh_keeper : vw_effective vw <> s_lamports s \/ vw_vote vw <> vote (s_del s) -> exists kp, hs_keeper a = Some kp;
  nh_prev : vw_effective vw <> s_lamports s \/ vw_vote vw <> vote (s_del s) -> vote (s_del s) <> 0 ->
    hs_prev a = e_val e (vote (s_del s)) (hs_config a) /\
    exists v, val_at e w (hs_prev a) v /\ hs_prev_auth a = authority (v_del v);
  nh_cur : vw_effective vw <> s_lamports s \/ vw_vote vw <> vote (s_del s) -> vw_vote vw <> 0 ->
    hs_cur a = e_val e (vw_vote vw) (hs_config a) /\
    (own (get w (hs_cur a)) = e_prog e -> exists v, val_at e w (hs_cur a) v /\ hs_cur_auth a = authority (v_del v));
}.

(** All instructions that settle rewards or move tokens. *)
Definition needs (e : env) (cx : ctx) (w : world) (c : call) : Prop :=
  match c with
  | CValidatorStakeTokens a n => exists cf v, val_at e w (st_stake a) v /\ needs_stake e cx w a n cf (v_del v)
  | CSolStakerStakeTokens a n => exists cf s, sol_at e w (st_stake a) s /\ needs_stake e cx w a n cf (s_del s)
  | CHarvestHolderRewards a => exists cf, needs_harvest_holder e cx w a cf
  | CHarvestValidatorRewards a => exists cf v, config_at e w (hv_config a) cf /\ val_at e w (hv_stake a) v /\
      can_settle e w (hv_config a) (hv_stake a) (hv_authority a) (hv_vhr a) (v_del v)
  | CSlashValidatorStake a n => exists cf v, val_at e w (sl_stake a) v /\ needs_slash e cx w a n cf (v_del v)
  | CSlashSolStakerStake a n => exists cf s, sol_at e w (sl_stake a) s /\ needs_slash e cx w a n cf (s_del s)
  | CHarvestSolStakerRewards a => exists s vw, needs_harvest_sol e cx w a s vw
  | CUnstakeTokens a n => exists cf d, needs_unstake e cx w a n cf d
  | CSolStakerMoveTokens a n => exists s t, needs_move e cx w a n s t
  | CValidatorOverride a n => exists cf v, needs_override e cx w a n cf v
  | _ => True
  end.
