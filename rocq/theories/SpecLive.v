(** When an instruction is well formed and affordable: the hypotheses of the
    progress theorems, in terms of account contents only. *)
From Verif Require Import Base Types Layout Processor Runtime History Spec SpecReward.

(** The config can pay the claims of all accounts with property [P] and stay rent
    exempt. *)
Definition affordable (e : env) (w : world) (ck : pubkey) (P : pubkey -> Prop) : Prop :=
  exists ks, NoDup ks /\ (forall k, P k -> In k ks) /\
    sum_over (pending e w ck) ks + e_rent e CONFIG_LEN <= lam (get w ck).
(** A validator whose cap is computable after its SOL changes to at most [l]. *)
Definition cappable (v : vstake) (l : N) : Prop := cap (N.max l (v_min v)) < 2 ^ 64.
(** The stake account's cap is computable. *)
Definition cap_fits (D : adata) : Prop :=
  (forall v, D = DVal v -> cappable v (v_total v)) /\ (forall s, D = DSol s -> cap (s_lamports s) < 2 ^ 64).

(** The vault's holder account exists, and fewer than 2^64 lamports do. *)
Definition settled_chain (e : env) (w : world) (ck : pubkey) : Prop :=
  (exists h, dat (get w (e_holder e (e_vault e ck))) = DHolder h) /\ total_lamports w < 2 ^ 64.

(** A well-formed [HarvestSolStakerRewards] of the staker [s], with view answer [vw]. *)
Record good_harvest_sol (e : env) (cx : ctx) (a : harvest_sol_accts) (w : world) (s : sstake) (vw : view)
    : Prop := {
  gh_config : exists c, config_at e w (hs_config a) c;
  gh_stake : sol_at e w (hs_stake a) s /\ hs_stake a = e_sol e (s_native s) (hs_config a);
  gh_native : hs_native a = s_native s;
  gh_vhr : hs_vhr a = e_holder e (e_vault e (hs_config a));
  gh_view : hs_view a = e_view e /\ c_view cx = Some vw;
  gh_auth : hs_authority a = authority (s_del s) /\ hs_authority a <> hs_config a;
  gh_keeper : exists kp, hs_keeper a = Some kp /\ kp <> hs_config a;
  (* the validator left: its stake account and authority *)
  gh_prev : vote (s_del s) <> 0 -> hs_prev a = e_val e (vote (s_del s)) (hs_config a) /\
    forall v, val_at e w (hs_prev a) v -> hs_prev_auth a = authority (v_del v) /\ hs_prev_auth a <> hs_config a /\
      cappable v (v_total v);
  (* the validator joined, if it has a stake account *)
  gh_cur : vw_vote vw <> 0 -> hs_cur a = e_val e (vw_vote vw) (hs_config a) /\
    forall v, val_at e w (hs_cur a) v -> hs_cur_auth a = authority (v_del v) /\ hs_cur_auth a <> hs_config a /\
      v_total v + vw_effective vw < 2 ^ 64 /\ cappable v (v_total v + vw_effective vw);
  gh_pay : affordable e w (hs_config a)
    (settles_with e w (hs_config a) (hs_stake a) (vote (s_del s)) (vw_vote vw));
  gh_cap : cap (vw_effective vw) < 2 ^ 64;
  gh_writable : forall k, In k [hs_config a; hs_stake a; hs_authority a; hs_prev a; hs_prev_auth a; hs_cur a; hs_cur_auth a] \/
    hs_keeper a = Some k -> writable cx k = true;
}.

(** A token account the token program will move tokens of [m] in and out of for its owner [o]. *)
Definition liquid (e : env) (w : world) (k m o : pubkey) (t : token) : Prop :=
  own (get w k) = e_token e /\ dat (get w k) = DToken t /\ t_mint t = m /\ t_owner t = o /\
  t_frozen t = false /\ t_delegate t <> Some o.
(** The accounts of an [UnstakeTokens] handed to the other programs. *)
Definition unstake_cpi (a : unstake_accts) : list pubkey :=
  [un_pool a; un_ptok a; un_vhr a; un_vault a; un_mint a; un_vault_pda a; un_tokprog a; un_dest a].

(** A well-formed [UnstakeTokens] of [n] from a stake with delegation [d]. *)
Record good_unstake (e : env) (cx : ctx) (a : unstake_accts) (n : N) (w : world) (c : config) (d : delegation)
    : Prop := {
  gu_config : config_at e w (un_config a) c;
  gu_stake : stake_of e w (un_config a) (un_stake a) = Some d;
  (* signed by the stake authority, which is none of the other accounts *)
  gu_auth : un_authority a = authority d /\ signed cx (un_authority a) = true /\
    un_authority a <> un_config a /\ ~ In (un_authority a) (unstake_cpi a);
  (* the addresses are the right ones *)
  gu_vault : un_vault a = cfg_vault c /\ un_vault_pda a = e_vault e (un_config a);
  gu_vhr : un_vhr a = e_holder e (e_vault e (un_config a)) /\ own (get w (un_vhr a)) = e_rewards e;
  gu_pool : un_pool a = e_pool e (un_mint a) /\ own (get w (un_pool a)) = e_rewards e;
  gu_mint : own (get w (un_mint a)) = e_token e /\ exists m, dat (get w (un_mint a)) = DMint m;
  gu_tokprog : un_tokprog a = e_token e /\ own (get w (e_token e)) <> e_prog e;
  (* the token accounts: vault, pool and destination *)
  gu_vtok : exists t, liquid e w (un_vault a) (un_mint a) (un_vault_pda a) t /\ t_amount t + n < 2 ^ 64;
  gu_ptok : exists t, liquid e w (un_ptok a) (un_mint a) (un_pool a) t /\
    deposit e w (un_config a) <= t_amount t;
  gu_dest : exists t o, liquid e w (un_dest a) (un_mint a) o t /\ t_amount t + n < 2 ^ 64 /\
    un_dest a <> un_vault a /\ un_dest a <> un_ptok a;
  (* the rewards pool's own arithmetic does not overflow *)
  gu_reward : since (c_pool_acc cx mod 2 ^ 128) (holder_acc e w (un_config a)) * deposit e w (un_config a) < 2 ^ 128 /\
    since (c_pool_acc cx mod 2 ^ 128) (holder_acc e w (un_config a)) * deposit e w (un_config a) / 10 ^ 18 < 2 ^ 64;
  (* the amount is within the limits of the deactivation window *)
  gu_amount : 0 < n /\ n <= staked d * cfg_bps c / 10000 /\ cooldown d <= c_now cx;
  (* its cap is computable *)
  gu_cap : cap_fits (dat (get w (un_stake a)));
  gu_pay : affordable e w (un_config a) (fun k => k = un_stake a);
  gu_writable : forall k, In k (un_config a :: un_stake a :: un_authority a :: un_dest a ::
    [un_pool a; un_ptok a; un_vhr a; un_vault a; un_vault_pda a]) -> writable cx k = true;
}.

(** The accounts of a staking instruction handed to the other programs, without
    the wallet that pays. *)
Definition stake_cpi (a : stake_accts) : list pubkey :=
  [st_source a; st_mint a; st_vault a; st_pool a; st_ptok a; st_vhr a; st_vault_pda a; st_tokprog a].
(** Which staking (slashing) instruction fits the contents of the stake account. *)
Definition stake_call (D : adata) (a : stake_accts) (n : N) : option call :=
  match D with
  | DVal _ => Some (CValidatorStakeTokens a n)
  | DSol _ => Some (CSolStakerStakeTokens a n)
  | _ => None
  end.
Definition slash_call (D : adata) (a : slash_accts) (n : N) : option call :=
  match D with
  | DVal _ => Some (CSlashValidatorStake a n)
  | DSol _ => Some (CSlashSolStakerStake a n)
  | _ => None
  end.
(** A well-formed staking instruction for [n] tokens to a stake with delegation [d]. *)
Record good_stake (e : env) (cx : ctx) (a : stake_accts) (n : N) (w : world) (c : config) (d : delegation)
    : Prop := {
  gs_config : config_at e w (st_config a) c;
  gs_stake : stake_of e w (st_config a) (st_stake a) = Some d;
  gs_auth : st_authority a = authority d /\ st_authority a <> st_config a /\ ~ In (st_authority a) (stake_cpi a);
  gs_vault : st_vault a = cfg_vault c /\ st_vault_pda a = e_vault e (st_config a);
  gs_vhr : st_vhr a = e_holder e (e_vault e (st_config a)) /\ own (get w (st_vhr a)) = e_rewards e;
  gs_pool : st_pool a = e_pool e (st_mint a) /\ own (get w (st_pool a)) = e_rewards e;
  gs_mint : own (get w (st_mint a)) = e_token e /\ exists m, dat (get w (st_mint a)) = DMint m;
  gs_tokprog : st_tokprog a = e_token e /\ own (get w (e_token e)) <> e_prog e;
  (* the paying wallet signs and is not an account of the stake program *)
  gs_payer : signed cx (st_source_auth a) = true /\ own (get w (st_source_auth a)) <> e_prog e;
  gs_source : exists t, liquid e w (st_source a) (st_mint a) (st_source_auth a) t /\ n <= t_amount t /\
    st_source a <> st_vault a /\ st_source a <> st_ptok a;
  gs_vtok : exists t, liquid e w (st_vault a) (st_mint a) (st_vault_pda a) t /\ t_amount t + n < 2 ^ 64;
  gs_ptok : exists t, liquid e w (st_ptok a) (st_mint a) (st_pool a) t /\ t_amount t + n < 2 ^ 64;
  (* the rewards pool can pay what it owes and take the deposit *)
  gs_reward : since (c_pool_acc cx mod 2 ^ 128) (holder_acc e w (st_config a)) * deposit e w (st_config a) < 2 ^ 128 /\
    since (c_pool_acc cx mod 2 ^ 128) (holder_acc e w (st_config a)) * deposit e w (st_config a) / 10 ^ 18 +
      e_rent e 64 <= lam (get w (st_pool a)) /\
    deposit e w (st_config a) + n < 2 ^ 64;
  gs_amount : 0 < n;
  gs_cap : cap_fits (dat (get w (st_stake a)));
  gs_pay : affordable e w (st_config a) (fun k => k = st_stake a);
  gs_writable : forall k, In k (st_config a :: st_stake a :: st_authority a ::
    [st_source a; st_vault a; st_pool a; st_ptok a; st_vhr a; st_vault_pda a]) -> writable cx k = true;
}.

(** A well-formed slash of up to [n] tokens of a stake with delegation [d]; the
    vault account is given by [t]. *)
Record good_slash (e : env) (cx : ctx) (a : slash_accts) (n : N) (w : world) (c : config) (d : delegation) (t : token)
    : Prop := {
  gx_config : config_at e w (sl_config a) c;
  gx_stake : stake_of e w (sl_config a) (sl_stake a) = Some d;
  gx_auth : sl_authority a = authority d /\ sl_authority a <> sl_config a /\
    ~ In (sl_authority a) [sl_vault a; sl_mint a; sl_vault_auth a];
  (* signed by the slash authority of the config *)
  gx_slash : sl_slash a = cfg_slash c /\ cfg_slash c <> 0 /\ signed cx (sl_slash a) = true;
  gx_vault : sl_vault a = cfg_vault c /\ sl_vault_auth a = e_vault e (sl_config a);
  gx_vhr : sl_vhr a = e_holder e (e_vault e (sl_config a));
  gx_vtok : liquid e w (sl_vault a) (sl_mint a) (sl_vault_auth a) t;
  gx_mint : own (get w (sl_mint a)) = e_token e /\
    exists m, dat (get w (sl_mint a)) = DMint m /\ N.min n (staked d) <= m_supply m;
  gx_tokprog : sl_tokprog a = e_token e;
  gx_amount : 0 < n;
  gx_cap : cap_fits (dat (get w (sl_stake a)));
  gx_pay : affordable e w (sl_config a) (fun k => k = sl_stake a);
  gx_writable : forall k, In k [sl_config a; sl_stake a; sl_authority a; sl_vault a; sl_mint a] -> writable cx k = true;
}.

(** A well-formed move of [n] tokens between two SOL-staker stakes. *)
Record good_move (e : env) (cx : ctx) (a : move_accts) (n : N) (w : world) (s t : sstake) : Prop := {
  gm_config : exists c, config_at e w (mv_config a) c;
  gm_source : sol_at e w (mv_source a) s /\ mv_source a = e_sol e (s_native s) (mv_config a);
  gm_dest : sol_at e w (mv_dest a) t /\ mv_dest a = e_sol e (s_native t) (mv_config a);
  gm_two : mv_source a <> mv_dest a;
  gm_auth : mv_authority a = authority (s_del s) /\ mv_authority a = authority (s_del t) /\
    signed cx (mv_authority a) = true /\ mv_authority a <> mv_config a;
  gm_vhr : mv_vhr a = e_holder e (e_vault e (mv_config a));
  gm_amount : n <= staked (s_del s);
  gm_cap : cap (s_lamports s) < 2 ^ 64 /\ cap (s_lamports t) < 2 ^ 64;
  gm_pay : affordable e w (mv_config a) (fun k => k = mv_source a \/ k = mv_dest a);
  gm_writable : forall k, In k [mv_config a; mv_source a; mv_dest a; mv_authority a] -> writable cx k = true;
}.

(** A well-formed [HarvestValidatorRewards] of the validator stake [v]. *)
Record good_harvest_val (e : env) (cx : ctx) (a : harvest_val_accts) (w : world) (v : vstake) : Prop := {
  gv_config : exists c, config_at e w (hv_config a) c;
  gv_stake : val_at e w (hv_stake a) v /\ hv_stake a = e_val e (vote (v_del v)) (hv_config a);
  gv_auth : hv_authority a = authority (v_del v) /\ hv_authority a <> hv_config a;
  gv_vhr : hv_vhr a = e_holder e (e_vault e (hv_config a));
  gv_pay : affordable e w (hv_config a) (fun k => k = hv_stake a);
  gv_writable : forall k, In k [hv_config a; hv_stake a; hv_authority a] -> writable cx k = true;
}.

(** A well-formed [ValidatorOverrideStakedLamports] to the minimum [n], signed by
    the config authority. *)
Record good_override (e : env) (cx : ctx) (a : override_accts) (n : N) (w : world) (c : config) (v : vstake) : Prop := {
  go_config : config_at e w (ov_config a) c;
  go_sign : ov_config_auth a = cfg_authority c /\ cfg_authority c <> 0 /\ signed cx (ov_config_auth a) = true;
  go_stake : val_at e w (ov_stake a) v /\ ov_stake a = e_val e (vote (v_del v)) (ov_config a);
  go_auth : ov_stake_auth a = authority (v_del v) /\ ov_stake_auth a <> ov_config a;
  go_vhr : ov_vhr a = e_holder e (e_vault e (ov_config a));
  go_cap : cap (N.max (v_total v) n) < 2 ^ 64;
  go_pay : affordable e w (ov_config a) (fun k => k = ov_stake a);
  go_writable : forall k, In k [ov_config a; ov_stake a; ov_stake_auth a] -> writable cx k = true;
}.

(** What the rewards pool owes the vault of a config at pool accumulator [acc]. *)
Definition pool_owes (e : env) (w : world) (ck : pubkey) (acc : N) : N :=
  since acc (holder_acc e w ck) * deposit e w ck / 10 ^ 18.
(** A well-formed [HarvestHolderRewards]. *)
Record good_harvest_holder (e : env) (cx : ctx) (a : harvest_holder_accts) (w : world) (c : config) : Prop := {
  gk_config : config_at e w (hh_config a) c;
  gk_vault : hh_vault a = cfg_vault c /\ hh_vault_pda a = e_vault e (hh_config a) /\
    exists t, dat (get w (hh_vault a)) = DToken t /\ t_mint t = hh_mint a;
  gk_vhr : hh_vhr a = e_holder e (e_vault e (hh_config a)) /\ own (get w (hh_vhr a)) = e_rewards e;
  gk_pool : hh_pool a = e_pool e (hh_mint a) /\ own (get w (hh_pool a)) = e_rewards e;
  gk_ptok : exists t, own (get w (hh_ptok a)) = e_token e /\ dat (get w (hh_ptok a)) = DToken t /\
    t_owner t = hh_pool a /\ t_mint t = hh_mint a;
  (* the pool's arithmetic does not overflow and it can pay *)
  gk_reward : since (c_pool_acc cx mod 2 ^ 128) (holder_acc e w (hh_config a)) * deposit e w (hh_config a) < 2 ^ 128 /\
    pool_owes e w (hh_config a) (c_pool_acc cx mod 2 ^ 128) + e_rent e 64 <= lam (get w (hh_pool a));
  (* the vault address is left with its rent minimum *)
  gk_rent : e_rent e 0 <= lam (get w (hh_vault_pda a)) + pool_owes e w (hh_config a) (c_pool_acc cx mod 2 ^ 128);
  (* and what is above it can be taken because the address belongs to the program *)
  gk_owner : own (get w (hh_vault_pda a)) = e_prog e \/
    lam (get w (hh_vault_pda a)) + pool_owes e w (hh_config a) (c_pool_acc cx mod 2 ^ 128) = e_rent e 0;
  gk_writable : forall k, In k [hh_config a; hh_pool a; hh_vhr a; hh_vault_pda a] -> writable cx k = true;
}.
