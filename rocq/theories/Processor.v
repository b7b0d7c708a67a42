(** The instruction handlers, [/repo/program/src/processor/*.rs].

    Rust mutates account data and lamports in place; here every function takes
    the world and returns the new one, reading and writing the same accounts in
    the same order.  Keys may coincide (aliased accounts share state).  Accounts
    a handler names are passed in a record, in the order of
    [/repo/program/src/instruction.rs] l.13-799. *)
From Verif Require Import Base Types Layout Instr Math External.

(** ** Helpers *)

(** Owner check plus [unpack_initialized::<Config>], the opening of every handler
    (e.g. [validator_stake_tokens.rs] l.46-52). *)
Definition load_config (e : env) (w : world) (k : pubkey) : result config :=
  let* _ := require (own (get w k) =? e_prog e) InvalidAccountOwner in
  unpack_config (dat (get w k)).

(** Owner check, [unpack_initialized_mut::<ValidatorStake>] and derivation check
    (e.g. [validator_stake_tokens.rs] l.58-74). *)
Definition load_val (e : env) (w : world) (k ck : pubkey) : result vstake :=
  let* _ := require (own (get w k) =? e_prog e) InvalidAccountOwner in
  let* v := unpack_val (dat (get w k)) in
  let* _ := require (k =? e_val e (vote (v_del v)) ck) InvalidSeeds in
  Ok v.
(** The same for SOL stakers (e.g. [sol_staker_stake_tokens.rs] l.64-80). *)
Definition load_sol (e : env) (w : world) (k ck : pubkey) : result sstake :=
  let* _ := require (own (get w k) =? e_prog e) InvalidAccountOwner in
  let* s := unpack_sol (dat (get w k)) in
  let* _ := require (k =? e_sol e (s_native s) ck) InvalidSeeds in
  Ok s.

(** The [delegation] field of either kind of stake account and its update. *)
Definition del_of (d : adata) : result delegation :=
  match d with
  | DVal v => Ok (v_del v)
  | DSol s => Ok (s_del s)
  | _ => Err InvalidAccountData
  end.
Definition upd_del (d : adata) (x : delegation) : adata :=
  match d with
  | DVal v => DVal (set_v_del v x)
  | DSol s => DSol (set_s_del s x)
  | _ => d
  end.
(** [delegation.field = ..] in place. *)
Definition put_del (w : world) (k : pubkey) (x : delegation) : world :=
  setd w k (upd_del (dat (get w k)) x).

(** [sync_config_lamports], [processor/mod.rs] l.274-291. *)
Definition sync_config_lamports (w : world) (ck : pubkey) : result world :=
  let* c := unpack_config (dat (get w ck)) in
  let* delta := csub (lam (get w ck)) (cfg_last c) in
  let* rpt := calculate_stake_rewards_per_token delta (cfg_effective c) in
  Ok (setd w ck (DConfig (set_cfg_last (set_cfg_acc c (wadd128 (cfg_acc c) rpt))
                                       (lam (get w ck))))).

(** [harvest], [processor/mod.rs] l.299-386. [sk] holds the delegation, [auth] is
    the authority account, [keeper] the optional keeper. *)
Definition harvest (e : env) (w : world) (ck vhr auth vault_authority sk : pubkey)
    (keeper : option pubkey) : result world :=
  let* d := del_of (dat (get w sk)) in
  let* _ := require (auth =? authority d) (Stake InvalidAuthority) in
  let* w := sync_config_lamports w ck in
  let* c := unpack_config (dat (get w ck)) in
  let* staking_reward := calculate_eligible_rewards (cfg_acc c) (last_stake d) (effective d) in
  let* _ := require (vhr =? e_holder e vault_authority) (Stake InvalidVaultHolderRewardsSeeds) in
  let* h := unpack_holder (dat (get w vhr)) in
  let* holder_reward := calculate_eligible_rewards (h_last h) (last_holder d) (staked d) in
  let* total := add64 staking_reward holder_reward in
  let w := put_del w sk (set_lasts d (h_last h) (cfg_acc c)) in
  let* config_lamports := csub (lam (get w ck)) total in
  let* _ := assert (e_rent e CONFIG_LEN <=? config_lamports) in
  let* '(w, keeper_reward) :=
    match keeper with
    | Some k =>
        let r := N.min total (cfg_sync c) in
        let* l := add64 (lam (get w k)) r in
        Ok (setl w k l, r)
    | None => Ok (w, 0)
    end in
  let* delegator_reward := csub total keeper_reward in
  let* recipient := add64 (lam (get w auth)) delegator_reward in
  let w := setd w ck (DConfig (set_cfg_last c config_lamports)) in
  let w := setl w ck config_lamports in
  Ok (setl w auth recipient).

(** [sync_effective], [processor/mod.rs] l.388-407. *)
Definition sync_effective (w : world) (ck sk : pubkey) (lamports lamports_min : N) : result world :=
  let* c := unpack_config (dat (get w ck)) in
  let* d := del_of (dat (get w sk)) in
  let* limit := calculate_maximum_stake (N.max lamports lamports_min) in
  let new_effective := N.min (staked d) limit in
  let* x := csub (cfg_effective c) (effective d) in
  let* x := add64 x new_effective in
  let w := setd w ck (DConfig (set_cfg_effective c x)) in
  Ok (put_del w sk (set_effective d new_effective)).

(** [transfer_excess_lamports], [processor/mod.rs] l.498-525. The [-=]/[+=] on u64
    trap on overflow; the runtime lets only the owner take lamports. *)
Definition transfer_excess (e : env) (w : world) (src dst : pubkey) : result world :=
  let l := lam (get w src) in
  let min_rent := e_rent e (data_len (dat (get w src))) in
  let* _ := require (min_rent <=? l) InsufficientFunds in
  let excess := l - min_rent in
  let* _ := require ((excess =? 0) || (own (get w src) =? e_prog e)) ExternalAccountLamportSpend in
  let w := setl w src min_rent in
  let* _ := assert (lam (get w dst) + excess <? U64) in
  Ok (setl w dst (lam (get w dst) + excess)).

(** [check_duna_document_signed], [processor/mod.rs] l.528-552. *)
Definition check_duna (e : env) (w : world) (signer doc hash : N) : result unit :=
  let* _ := require (doc =? e_duna e signer hash) InvalidSeeds in
  require (bool_decide (head (raw_bytes e (dat (get w doc))) = Some 1))
          (Stake DunaDocumentNotInitialized).

(** Signers of a plain [invoke] and of [invoke_signed] with a PDA's seeds. *)
Definition with_pda (cx : ctx) (pda : pubkey) (k : pubkey) : bool := signed cx k || (k =? pda).

(** At a CPI the runtime refuses accounts whose data is still borrowed
    ([held]), and checks that the lamports of the accounts handed over so far add
    up to what they were when the instruction started ([w0]). *)
Definition lam_sum (w : world) (ks : list pubkey) : N :=
  fold_right (fun k s => lam (get w k) + s) 0 (nodup N.eq_dec ks).
Definition cpi_check (w0 w : world) (held ks : list pubkey) : result unit :=
  let* _ := require (negb (existsb (fun k => existsb (N.eqb k) held) ks)) AccountBorrowFailed in
  require (lam_sum w ks =? lam_sum w0 ks) UnbalancedInstruction.

(** ** Handlers *)

Record init_config_accts := InitConfigA {
  ic_config : pubkey; ic_mint : pubkey; ic_vault_pda : pubkey; ic_vault : pubkey; ic_vhr : pubkey }.

(** [process_initialize_config], [initialize_config.rs] l.20-160. *)
Definition initialize_config (e : env) (cx : ctx) (a : init_config_accts)
    (slash auth cooldown bps sync duna : N) (w : world) : result world :=
  let* _ := unpack_mint (dat (get w (ic_mint a))) in
  let vs := e_vault e (ic_config a) in
  let* _ := require (ic_vault_pda a =? vs) (Stake IncorrectVaultPdaAccount) in
  let* _ := require (data_empty (dat (get w (ic_vault_pda a)))) AccountAlreadyInitialized in
  let* w := system_assign (with_pda cx vs) w (ic_vault_pda a) (e_prog e) in
  let* _ := require (ic_vhr a =? e_holder e (ic_vault_pda a)) (Stake InvalidVaultHolderRewardsSeeds) in
  let* t := unpack_token (dat (get w (ic_vault a))) in
  let* _ := require (t_owner t =? vs) (Stake InvalidTokenOwner) in
  let* _ := require (bool_decide (t_close t = None)) (Stake CloseAuthorityNotNone) in
  let* _ := require (bool_decide (t_delegate t = None)) (Stake DelegateNotNone) in
  let* _ := require (t_mint t =? ic_mint a) (Stake InvalidMint) in
  let* _ := require (t_amount t =? 0) (Stake AmountGreaterThanZero) in
  let* _ := require (own (get w (ic_config a)) =? e_prog e) InvalidAccountOwner in
  let* _ := require (data_len (dat (get w (ic_config a))) =? CONFIG_LEN) (Stake InvalidAccountDataLength) in
  let* _ := require (config_uninitialized e (dat (get w (ic_config a)))) AccountAlreadyInitialized in
  let* _ := require (e_rent e CONFIG_LEN <=? lam (get w (ic_config a))) AccountNotRentExempt in
  let* _ := require (bps <=? MAX_BPS) InvalidArgument in
  Ok (setd w (ic_config a)
        (DConfig (Cfg auth slash (ic_vault a) cooldown 0 sync (lam (get w (ic_config a))) duna 0 bps
                      (e_bump e (ic_config a)) 0))).

Record init_val_accts := InitValA {
  iv_config : pubkey; iv_duna : pubkey; iv_stake : pubkey; iv_vote : pubkey }.

(** [process_initialize_validator_stake], [initialize_validator_stake.rs] l.28-142. *)
Definition initialize_validator_stake (e : env) (cx : ctx) (a : init_val_accts) (w : world)
    : result world :=
  let* c := load_config e w (iv_config a) in
  let* _ := require (own (get w (iv_vote a)) =? e_votep e) InvalidAccountOwner in
  let* withdrawer := vote_withdrawer (dat (get w (iv_vote a))) in
  let* _ := check_duna e w withdrawer (iv_duna a) (cfg_duna c) in
  let pda := e_val e (iv_vote a) (iv_config a) in
  let* _ := require (iv_stake a =? pda) InvalidSeeds in
  let* _ := require (data_empty (dat (get w (iv_stake a)))) AccountAlreadyInitialized in
  let* _ := require (e_rent e VAL_LEN <=? lam (get w (iv_stake a))) AccountNotRentExempt in
  let* w := system_allocate (with_pda cx pda) w (iv_stake a) VAL_LEN in
  let* w := system_assign (with_pda cx pda) w (iv_stake a) (e_prog e) in
  Ok (setd w (iv_stake a) (DVal (VStake (Del 0 0 0 withdrawer (iv_vote a) 0 0) 0 0))).

Record init_sol_accts := InitSolA {
  is_config : pubkey; is_duna : pubkey; is_stake : pubkey; is_override : pubkey;
  is_val : pubkey; is_native : pubkey; is_view : pubkey }.

(** [process_initialize_sol_staker_stake], [initialize_sol_staker_stake.rs] l.38-212. *)
Definition initialize_sol_staker_stake (e : env) (cx : ctx) (a : init_sol_accts) (w : world)
    : result world :=
  let* c := load_config e w (is_config a) in
  let* _ := require (is_view a =? e_view e) IncorrectProgramId in
  let* vw := match c_view cx with Some v => Ok v | None => Err ViewError end in
  let* _ := require (negb (vw_vote vw =? 0)) (Stake UndelegatedSolStakeAccount) in
  let* _ := require (negb (vw_withdrawer vw =? 0)) InvalidAccountData in
  let* _ := check_duna e w (vw_withdrawer vw) (is_duna a) (cfg_duna c) in
  let* _ := require (own (get w (is_val a)) =? e_prog e) InvalidAccountOwner in
  let* _ := require (is_val a =? e_val e (vw_vote vw) (is_config a)) InvalidSeeds in
  let* _ := unpack_val (dat (get w (is_val a))) in
  let pda := e_sol e (is_native a) (is_config a) in
  let* _ := require (is_stake a =? pda) InvalidSeeds in
  let* _ := require (data_empty (dat (get w (is_stake a)))) AccountAlreadyInitialized in
  let* _ := require (is_override a =? e_override e (vw_withdrawer vw) (is_config a)) InvalidSeeds in
  let ov := dat (get w (is_override a)) in
  let* auth :=
    if data_empty ov then Ok (vw_withdrawer vw)
    else if 32 <=? data_len ov then Ok (num_at (raw_bytes e ov) 0 32)
    else Panic in
  let* _ := require (e_rent e SOL_LEN <=? lam (get w (is_stake a))) AccountNotRentExempt in
  let* w := system_allocate (with_pda cx pda) w (is_stake a) SOL_LEN in
  let* w := system_assign (with_pda cx pda) w (is_stake a) (e_prog e) in
  let w := setd w (is_stake a)
             (DSol (SStake (Del 0 0 0 auth (vw_vote vw) 0 0) (vw_effective vw) (is_native a))) in
  let* v := unpack_val (dat (get w (is_val a))) in
  let* total := add64 (v_total v) (vw_effective vw) in
  Ok (setd w (is_val a) (DVal (set_v_total v total))).

Record set_auth_accts := SetAuthA { sa_account : pubkey; sa_authority : pubkey; sa_new : pubkey }.

(** [process_set_authority], [set_authority.rs] l.22-78. *)
Definition set_authority_ix (e : env) (cx : ctx) (a : set_auth_accts) (t : authority_type) (w : world)
    : result world :=
  let* _ := require (signed cx (sa_authority a)) MissingRequiredSignature in
  let* c := load_config e w (sa_account a) in
  let current := match t with AuthConfig => cfg_authority c | AuthSlash => cfg_slash c end in
  let* _ := require (negb (current =? 0)) (Stake AuthorityNotSet) in
  let* _ := require (sa_authority a =? current) (Stake InvalidAuthority) in
  Ok (setd w (sa_account a)
        (DConfig match t with
                 | AuthConfig => set_cfg_authority c (sa_new a)
                 | AuthSlash => set_cfg_slash c (sa_new a)
                 end)).

Record update_config_accts := UpdateConfigA { uc_config : pubkey; uc_authority : pubkey }.

(** [process_update_config], [update_config.rs] l.21-79. *)
Definition update_config (e : env) (cx : ctx) (a : update_config_accts) (f : config_field) (w : world)
    : result world :=
  let* c := load_config e w (uc_config a) in
  let* _ := require (negb (cfg_authority c =? 0)) (Stake AuthorityNotSet) in
  let* _ := require (uc_authority a =? cfg_authority c) (Stake InvalidAuthority) in
  let* _ := require (signed cx (uc_authority a)) MissingRequiredSignature in
  let* c' :=
    match f with
    | CooldownTimeSeconds x => Ok (set_cfg_cooldown c x)
    | MaxDeactivationBasisPoints x => let* _ := require (x <=? MAX_BPS) InvalidArgument in Ok (set_cfg_bps c x)
    | SyncRewardsLamports x => Ok (set_cfg_sync c x)
    end in
  Ok (setd w (uc_config a) (DConfig c')).

Record stake_accts := StakeA {
  st_config : pubkey; st_pool : pubkey; st_ptok : pubkey; st_stake : pubkey; st_authority : pubkey;
  st_source : pubkey; st_source_auth : pubkey; st_mint : pubkey; st_vault_pda : pubkey;
  st_vault : pubkey; st_vhr : pubkey; st_tokprog : pubkey }.

(** The common part of the two staking handlers after the stake account was
    loaded: [validator_stake_tokens.rs] l.76-186 and [sol_staker_stake_tokens.rs]
    l.82-195.  [check_owner] is the extra check of the latter (l.116-120). *)
Definition stake_tokens (e : env) (cx : ctx) (a : stake_accts) (check_owner : bool) (amount : N)
    (w0 : world) : result world :=
  let vs := e_vault e (st_config a) in
  let* w := harvest e w0 (st_config a) (st_vhr a) (st_authority a) vs (st_stake a) None in
  let* c := unpack_config (dat (get w (st_config a))) in
  let* _ := require (st_vault_pda a =? vs) (Stake IncorrectVaultPdaAccount) in
  let* _ := require (st_vault a =? cfg_vault c) (Stake IncorrectVaultAccount) in
  let* t := unpack_token (dat (get w (st_vault a))) in
  let* _ := require (negb check_owner || (t_owner t =? st_vault_pda a)) (Stake InvalidVaultPdaOwner) in
  let* _ := require (t_mint t =? st_mint a) (Stake InvalidMint) in
  let* _ := unpack_mint (dat (get w (st_mint a))) in
  let* _ := require (0 <? amount) (Stake InvalidAmount) in
  let* d := del_of (dat (get w (st_stake a))) in
  let* s := add64 (staked d) amount in
  let w := put_del w (st_stake a) (set_staked d s) in
  let '(l, lmin) := match dat (get w (st_stake a)) with
                    | DVal v => (v_total v, v_min v)
                    | DSol s => (s_lamports s, 0)
                    | _ => (0, 0)
                    end in
  let* w := sync_effective w (st_config a) (st_stake a) l lmin in
  let k1 := [st_source a; st_mint a; st_vault a; st_source_auth a] in
  let held := [st_config a; st_stake a] in
  let* _ := cpi_check w0 w held k1 in
  let* w := token_transfer e (signed cx) w (st_source a) (st_mint a) (st_vault a) (st_source_auth a) amount in
  let k2 := [st_pool a; st_ptok a; st_vhr a; st_vault a; st_mint a; st_vault_pda a; st_tokprog a] in
  let* _ := cpi_check w0 w held (k1 ++ k2) in
  rewards_deposit e (with_pda cx vs) w (st_pool a) (st_ptok a) (st_vhr a) (st_vault a) (st_mint a)
    (st_vault_pda a) (st_tokprog a) amount (c_pool_acc cx mod U128).

(** [process_validator_stake_tokens], [validator_stake_tokens.rs] l.36-187. *)
Definition validator_stake_tokens (e : env) (cx : ctx) (a : stake_accts) (amount : N) (w : world)
    : result world :=
  let* _ := load_config e w (st_config a) in
  let* _ := load_val e w (st_stake a) (st_config a) in
  stake_tokens e cx a false amount w.

(** [process_sol_staker_stake_tokens], [sol_staker_stake_tokens.rs] l.42-196. *)
Definition sol_staker_stake_tokens (e : env) (cx : ctx) (a : stake_accts) (amount : N) (w : world)
    : result world :=
  let* _ := load_config e w (st_config a) in
  let* _ := load_sol e w (st_stake a) (st_config a) in
  stake_tokens e cx a true amount w.

Record harvest_val_accts := HarvestValA {
  hv_config : pubkey; hv_vhr : pubkey; hv_stake : pubkey; hv_authority : pubkey }.

(** [process_harvest_validator_rewards], [harvest_validator_rewards.rs] l.22-93. *)
Definition harvest_validator_rewards (e : env) (cx : ctx) (a : harvest_val_accts) (w : world)
    : result world :=
  let* _ := load_config e w (hv_config a) in
  let* v := load_val e w (hv_stake a) (hv_config a) in
  let* _ := require (hv_authority a =? authority (v_del v)) (Stake InvalidAuthority) in
  let vs := e_vault e (hv_config a) in
  let* _ := require (hv_vhr a =? e_holder e vs) InvalidSeeds in
  harvest e w (hv_config a) (hv_vhr a) (hv_authority a) vs (hv_stake a) None.

Record harvest_sol_accts := HarvestSolA {
  hs_view : pubkey; hs_config : pubkey; hs_vhr : pubkey; hs_stake : pubkey; hs_authority : pubkey;
  hs_native : pubkey; hs_prev : pubkey; hs_prev_auth : pubkey; hs_cur : pubkey; hs_cur_auth : pubkey;
  hs_keeper : option pubkey }.

(** Harvest a validator and set its total ([previous]: subtract, [current]: add),
    then re-cap it; [harvest_sol_staker_rewards.rs] l.184-210 and l.239-265. *)
Definition resync_validator (e : env) (w : world) (ck vhr vs vk vauth : pubkey)
    (f : N -> result N) : result world :=
  let* w := harvest e w ck vhr vauth vs vk None in
  let* v := unpack_val (dat (get w vk)) in
  let* total := f (v_total v) in
  let w := setd w vk (DVal (set_v_total v total)) in
  sync_effective w ck vk total (v_min v).

(** l.153-213: remove the staker from its previous validator. *)
Definition leave_previous (e : env) (w : world) (a : harvest_sol_accts) (vs : pubkey) (s : sstake)
    : result world :=
  if negb (vote (s_del s) =? 0) then
    let* _ := require (own (get w (hs_prev a)) =? e_prog e) InvalidAccountOwner in
    let* _ := require (hs_prev a =? e_val e (vote (s_del s)) (hs_config a)) InvalidSeeds in
    let* _ := unpack_val (dat (get w (hs_prev a))) in
    resync_validator e w (hs_config a) (hs_vhr a) vs (hs_prev a) (hs_prev_auth a)
      (fun t => csub t (s_lamports s))
  else
    let* _ := assert (s_lamports s =? 0) in
    Ok w.

(** l.215-270: add the staker to its current validator, if it has a stake account. *)
Definition join_current (e : env) (w : world) (a : harvest_sol_accts) (vs cur_vote cur_stake : N)
    : result (world * N * N) :=
  if negb (cur_vote =? 0) then
    let* _ := require (hs_cur a =? e_val e cur_vote (hs_config a)) InvalidSeeds in
    if own (get w (hs_cur a)) =? e_prog e then
      let* _ := unpack_val (dat (get w (hs_cur a))) in
      let* w := resync_validator e w (hs_config a) (hs_vhr a) vs (hs_cur a) (hs_cur_auth a)
                  (fun t => add64 t cur_stake) in
      Ok (w, cur_vote, cur_stake)
    else Ok (w, 0, 0)
  else Ok (w, cur_vote, cur_stake).

(** [process_harvest_sol_staker_rewards], [harvest_sol_staker_rewards.rs] l.40-278. *)
Definition harvest_sol_staker_rewards (e : env) (cx : ctx) (a : harvest_sol_accts) (w : world)
    : result world :=
  let* _ := load_config e w (hs_config a) in
  let* s := load_sol e w (hs_stake a) (hs_config a) in
  let* _ := require (hs_authority a =? authority (s_del s)) (Stake InvalidAuthority) in
  let* _ := require (hs_native a =? s_native s) (Stake IncorrectSolStakeAccount) in
  let vs := e_vault e (hs_config a) in
  let* _ := require (hs_vhr a =? e_holder e vs) InvalidSeeds in
  let* _ := require (hs_view a =? e_view e) IncorrectProgramId in
  let* vw := match c_view cx with Some v => Ok v | None => Err ViewError end in
  let cur_vote := vw_vote vw in
  let cur_stake := vw_effective vw in
  let requires_sync := negb (cur_stake =? s_lamports s) || negb (cur_vote =? vote (s_del s)) in
  let* keeper :=
    if requires_sync
    then match hs_keeper a with Some k => Ok (Some k) | None => Err NotEnoughAccountKeys end
    else Ok None in
  let* w := harvest e w (hs_config a) (hs_vhr a) (hs_authority a) vs (hs_stake a) keeper in
  if negb requires_sync then Ok w
  else
    let* s := unpack_sol (dat (get w (hs_stake a))) in
    let* w := leave_previous e w a vs s in
    let* '(w, cur_vote, cur_stake) := join_current e w a vs cur_vote cur_stake in
    let* s := unpack_sol (dat (get w (hs_stake a))) in
    let w := setd w (hs_stake a)
               (DSol (SStake (set_vote (s_del s) cur_vote) cur_stake (s_native s))) in
    sync_effective w (hs_config a) (hs_stake a) cur_stake 0.

Record unstake_accts := UnstakeA {
  un_config : pubkey; un_pool : pubkey; un_ptok : pubkey; un_stake : pubkey; un_authority : pubkey;
  un_vault : pubkey; un_vault_pda : pubkey; un_vhr : pubkey; un_mint : pubkey; un_dest : pubkey;
  un_tokprog : pubkey }.

(** Either kind of stake account by data length: derived address, limits,
    [unstake_tokens.rs] l.75-103. *)
Definition load_any (e : env) (w : world) (k ck : pubkey) : result (N * N * N) :=
  let d := dat (get w k) in
  if data_len d =? VAL_LEN then
    let* v := unpack_val d in
    Ok (e_val e (vote (v_del v)) ck, v_total v, v_min v)
  else if data_len d =? SOL_LEN then
    let* s := unpack_sol d in
    Ok (e_sol e (s_native s) ck, s_lamports s, 0)
  else Err InvalidAccountData.

(** [process_unstake_tokens], [unstake_tokens.rs] l.21-232. *)
Definition unstake_tokens (e : env) (cx : ctx) (a : unstake_accts) (amount : N) (w0 : world)
    : result world :=
  let* c := load_config e w0 (un_config a) in
  let* _ := require (un_vault a =? cfg_vault c) (Stake IncorrectVaultAccount) in
  let* _ := require (negb (un_vault a =? un_dest a)) (Stake InvalidDestinationAccount) in
  let* t := unpack_token (dat (get w0 (un_vault a))) in
  let vs := e_vault e (un_config a) in
  let* _ := require (un_vault_pda a =? vs) (Stake IncorrectVaultPdaAccount) in
  let* _ := require (own (get w0 (un_stake a)) =? e_prog e) InvalidAccountOwner in
  let* '(pda, l, lmin) := load_any e w0 (un_stake a) (un_config a) in
  let* _ := require (un_stake a =? pda) InvalidSeeds in
  let* _ := require (signed cx (un_authority a)) MissingRequiredSignature in
  let* d := del_of (dat (get w0 (un_stake a))) in
  let* _ := require (un_authority a =? authority d) (Stake InvalidAuthority) in
  let* _ := require (t_mint t =? un_mint a) (Stake InvalidMint) in
  let* _ := unpack_mint (dat (get w0 (un_mint a))) in
  let* w := harvest e w0 (un_config a) (un_vhr a) (un_authority a) vs (un_stake a) None in
  let* d := del_of (dat (get w (un_stake a))) in
  let* c := unpack_config (dat (get w (un_config a))) in
  let now := c_now cx in
  let* _ := require (cooldown d <=? now) (Stake ActiveUnstakeCooldown) in
  let* _ := require (amount <=? staked d) (Stake InsufficientStakeAmount) in
  let* m := max_deactivation_amount (staked d) (cfg_bps c) in
  let* _ := require (amount <=? m) (Stake MaximumDeactivationAmountExceeded) in
  let* s := csub (staked d) amount in
  let w := put_del w (un_stake a) (set_cooldown (set_staked d s) (sat_add64 now (cfg_cooldown c))) in
  let* w := sync_effective w (un_config a) (un_stake a) l lmin in
  let k1 := [un_pool a; un_ptok a; un_vhr a; un_vault a; un_mint a; un_vault_pda a; un_tokprog a] in
  let held := [un_config a; un_stake a] in
  let* _ := cpi_check w0 w held k1 in
  let* w := rewards_withdraw e (with_pda cx vs) w (un_pool a) (un_ptok a) (un_vhr a) (un_vault a)
              (un_mint a) (un_vault_pda a) (un_tokprog a) amount (c_pool_acc cx mod U128) in
  let k2 := [un_vault a; un_mint a; un_dest a; un_vault_pda a] in
  let* _ := cpi_check w0 w held (k1 ++ k2) in
  token_transfer e (with_pda cx vs) w (un_vault a) (un_mint a) (un_dest a) (un_vault_pda a) amount.

Record slash_accts := SlashA {
  sl_config : pubkey; sl_stake : pubkey; sl_authority : pubkey; sl_slash : pubkey; sl_vault : pubkey;
  sl_vhr : pubkey; sl_vault_auth : pubkey; sl_mint : pubkey; sl_tokprog : pubkey }.

(** [process_slash_for_delegation], [processor/mod.rs] l.421-496. *)
Definition process_slash_for_delegation (e : env) (cx : ctx) (a : slash_accts) (amount : N)
    (w0 w : world) : result world :=
  let* _ := require (sl_tokprog a =? e_token e) IncorrectProgramId in
  let* _ := require (0 <? amount) (Stake InvalidAmount) in
  let* d := del_of (dat (get w (sl_stake a))) in
  let actual := N.min amount (staked d) in
  let* s := csub (staked d) actual in
  let w := put_del w (sl_stake a) (set_staked d s) in
  if 0 <? actual then
    let* _ := unpack_mint (dat (get w (sl_mint a))) in
    let* _ := cpi_check w0 w [sl_config a; sl_stake a] [sl_vault a; sl_mint a; sl_vault_auth a] in
    token_burn e (with_pda cx (sl_vault_auth a)) w (sl_vault a) (sl_mint a) (sl_vault_auth a) actual
  else Ok w.

(** The common part of the two slash handlers after the stake account was loaded:
    [slash_validator_stake.rs] l.78-161, [slash_sol_staker_stake.rs] l.78-161. *)
Definition slash_stake (e : env) (cx : ctx) (a : slash_accts) (c : config) (l lmin amount : N)
    (w0 : world) : result world :=
  let* vs := match e_create_vault e (sl_config a) (cfg_bump c) with
             | Some k => Ok k | None => Err InvalidSeeds end in
  let* _ := require (sl_vault_auth a =? vs) (Stake InvalidAuthority) in
  let* w := harvest e w0 (sl_config a) (sl_vhr a) (sl_authority a) (sl_vault_auth a) (sl_stake a) None in
  let* c := unpack_config (dat (get w (sl_config a))) in
  let* _ := require (negb (cfg_slash c =? 0)) (Stake AuthorityNotSet) in
  let* _ := require (sl_slash a =? cfg_slash c) (Stake InvalidAuthority) in
  let* _ := require (signed cx (sl_slash a)) MissingRequiredSignature in
  let* _ := require (sl_vault a =? cfg_vault c) (Stake IncorrectVaultAccount) in
  let* t := unpack_token (dat (get w (sl_vault a))) in
  let* _ := require (t_mint t =? sl_mint a) (Stake InvalidMint) in
  let* w := process_slash_for_delegation e cx a amount w0 w in
  sync_effective w (sl_config a) (sl_stake a) l lmin.

(** [process_slash_validator_stake], [slash_validator_stake.rs] l.37-162. *)
Definition slash_validator_stake (e : env) (cx : ctx) (a : slash_accts) (amount : N) (w : world)
    : result world :=
  let* c := load_config e w (sl_config a) in
  let* v := load_val e w (sl_stake a) (sl_config a) in
  slash_stake e cx a c (v_total v) (v_min v) amount w.

(** [process_slash_sol_staker_stake], [slash_sol_staker_stake.rs] l.37-162. *)
Definition slash_sol_staker_stake (e : env) (cx : ctx) (a : slash_accts) (amount : N) (w : world)
    : result world :=
  let* c := load_config e w (sl_config a) in
  let* s := load_sol e w (sl_stake a) (sl_config a) in
  slash_stake e cx a c (s_lamports s) 0 amount w.

Record move_accts := MoveA {
  mv_config : pubkey; mv_vhr : pubkey; mv_authority : pubkey; mv_source : pubkey; mv_dest : pubkey }.

(** [process_sol_staker_move_tokens], [sol_staker_move_tokens.rs] l.11-156. *)
Definition sol_staker_move_tokens (e : env) (cx : ctx) (a : move_accts) (amount : N) (w : world)
    : result world :=
  let* _ := load_config e w (mv_config a) in
  let* _ := require (signed cx (mv_authority a)) MissingRequiredSignature in
  let* s := load_sol e w (mv_source a) (mv_config a) in
  let* _ := require (authority (s_del s) =? mv_authority a) (Stake InvalidAuthority) in
  let vs := e_vault e (mv_config a) in
  let* w := harvest e w (mv_config a) (mv_vhr a) (mv_authority a) vs (mv_source a) None in
  let* _ := require (own (get w (mv_dest a)) =? e_prog e) InvalidAccountOwner in
  let* _ := require (negb (mv_dest a =? mv_source a)) AccountBorrowFailed in
  let* _ := load_sol e w (mv_dest a) (mv_config a) in
  let* w := harvest e w (mv_config a) (mv_vhr a) (mv_authority a) vs (mv_dest a) None in
  let* src := unpack_sol (dat (get w (mv_source a))) in
  let* dst := unpack_sol (dat (get w (mv_dest a))) in
  let* _ := assert (authority (s_del src) =? authority (s_del dst)) in
  let* x := csub (staked (s_del src)) amount in
  let* y := add64 (staked (s_del dst)) amount in
  let w := put_del w (mv_source a) (set_staked (s_del src) x) in
  let w := put_del w (mv_dest a)
             (set_cooldown (set_staked (s_del dst) y)
                           (N.max (cooldown (s_del src)) (cooldown (s_del dst)))) in
  let* w := sync_effective w (mv_config a) (mv_source a) (s_lamports src) 0 in
  sync_effective w (mv_config a) (mv_dest a) (s_lamports dst) 0.

Record override_accts := OverrideA {
  ov_config : pubkey; ov_config_auth : pubkey; ov_stake : pubkey; ov_stake_auth : pubkey; ov_vhr : pubkey }.

(** [process_validator_override_staked_lamports], [validator_override_staked_lamports.rs] l.12-96. *)
Definition validator_override (e : env) (cx : ctx) (a : override_accts) (amount_min : N) (w : world)
    : result world :=
  let* c := load_config e w (ov_config a) in
  let* _ := require (negb (cfg_authority c =? 0)) (Stake AuthorityNotSet) in
  let* _ := require (ov_config_auth a =? cfg_authority c) (Stake InvalidAuthority) in
  let* _ := require (signed cx (ov_config_auth a)) MissingRequiredSignature in
  let* _ := load_val e w (ov_stake a) (ov_config a) in
  let vs := e_vault e (ov_config a) in
  let* w := harvest e w (ov_config a) (ov_vhr a) (ov_stake_auth a) vs (ov_stake a) None in
  let* v := unpack_val (dat (get w (ov_stake a))) in
  let w := setd w (ov_stake a) (DVal (set_v_min v amount_min)) in
  sync_effective w (ov_config a) (ov_stake a) (v_total v) amount_min.

Record sync_auth_accts := SyncAuthA { sy_config : pubkey; sy_stake : pubkey; sy_vote : pubkey }.

(** [process_validator_sync_authority], [validator_sync_authority.rs] l.13-70. The
    stake account's owner is not checked by the code; the runtime rejects the
    write ([ExternalAccountDataModified]) if it is not the program's. *)
Definition validator_sync_authority (e : env) (cx : ctx) (a : sync_auth_accts) (w : world)
    : result world :=
  let* _ := load_config e w (sy_config a) in
  let* _ := require (sy_stake a =? e_val e (sy_vote a) (sy_config a)) InvalidSeeds in
  let* v := match unpack_val (dat (get w (sy_stake a))) with Ok v => Ok v | _ => Panic end in
  let* _ := require (own (get w (sy_vote a)) =? e_votep e) InvalidAccountOwner in
  let* withdrawer := vote_withdrawer (dat (get w (sy_vote a))) in
  let* _ := require (own (get w (sy_stake a)) =? e_prog e) ExternalAccountDataModified in
  Ok (put_del w (sy_stake a) (set_authority (v_del v) withdrawer)).

Record harvest_holder_accts := HarvestHolderA {
  hh_config : pubkey; hh_pool : pubkey; hh_ptok : pubkey; hh_vault : pubkey; hh_vhr : pubkey;
  hh_vault_pda : pubkey; hh_mint : pubkey }.

(** [process_harvest_holder_rewards], [harvest_holder_rewards.rs] l.37-132. *)
Definition harvest_holder_rewards (e : env) (cx : ctx) (a : harvest_holder_accts) (w : world)
    : result world :=
  let* c := load_config e w (hh_config a) in
  let* _ := require (hh_vault a =? cfg_vault c) (Stake IncorrectVaultAccount) in
  let* t := unpack_token (dat (get w (hh_vault a))) in
  let* _ := require (t_mint t =? hh_mint a) (Stake InvalidMint) in
  let* vs := match e_create_vault e (hh_config a) (cfg_bump c) with
             | Some k => Ok k | None => Err InvalidSeeds end in
  let* _ := require (hh_vault_pda a =? vs) (Stake InvalidAuthority) in
  let* _ := require (own (get w (hh_vhr a)) =? e_rewards e) InvalidAccountOwner in
  let* _ := require (hh_vhr a =? e_holder e (hh_vault_pda a)) InvalidSeeds in
  let* w := sync_config_lamports w (hh_config a) in
  let* w := rewards_harvest e (with_pda cx vs) w (hh_pool a) (hh_ptok a) (hh_vhr a) (hh_mint a)
              (hh_vault_pda a) (c_pool_acc cx mod U128) in
  let* w := transfer_excess e w (hh_vault_pda a) (hh_config a) in
  let* c := unpack_config (dat (get w (hh_config a))) in
  Ok (setd w (hh_config a) (DConfig (set_cfg_last c (lam (get w (hh_config a)))))).
