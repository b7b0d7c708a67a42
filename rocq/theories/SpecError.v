(** Vocabulary: what an error value says.  [reason e cx w c x] is what must be the
    case, in the accounts as they were, when the call [c] fails with [x]; [False]
    if that call never fails with [x]. *)
From Verif Require Import Base Types Layout Instr Processor Runtime History Spec.

(** Errors about which nothing is claimed: contents that cannot be read, numbers
    that do not fit, failures of called programs and of the runtime's checks. *)
Definition unspecific (x : error) : Prop :=
  match x with
  | InvalidAccountData | UninitializedAccount | BorshIoError | ArithmeticOverflow | InsufficientFunds
  | TokenError | RewardsError | SystemError
  | UnbalancedInstruction | ExternalAccountLamportSpend | ReadonlyAccountModified => True
  | _ => False
  end.

Definition foreign (e : env) (w : world) (k : pubkey) : Prop := own (get w k) <> e_prog e.
(** The config, a token account, a stake account is not as it should be. *)
Definition of_config (e : env) (w : world) (ck : pubkey) (P : config -> Prop) : Prop :=
  exists c, config_at e w ck c /\ P c.
Definition of_token (w : world) (k : pubkey) (P : token -> Prop) : Prop :=
  exists t, dat (get w k) = DToken t /\ P t.
Definition of_stake (e : env) (w : world) (ck k : pubkey) (P : delegation -> Prop) : Prop :=
  exists d, stake_of e w ck k = Some d /\ P d.
Definition no_stake (e : env) (w : world) (ck k : pubkey) : Prop := stake_of e w ck k = None.
Definition unsigned (cx : ctx) (k : pubkey) : Prop := ~ In k (c_signers cx).
(** An account passed on to another program is one the instruction works on. *)
Definition shared (ck sk : pubkey) (ks : list pubkey) : Prop := In ck ks \/ In sk ks.

Definition reason (e : env) (cx : ctx) (w : world) (c : call) (x : error) : Prop :=
  match c with
  | CInitializeConfig a _ _ _ bps _ _ =>
      let vault := of_token w (ic_vault a) in
      match x with
      | Stake IncorrectVaultPdaAccount => ic_vault_pda a <> e_vault e (ic_config a)
      | Stake InvalidVaultHolderRewardsSeeds => ic_vhr a <> e_holder e (e_vault e (ic_config a))
      | Stake InvalidTokenOwner => vault (fun t => t_owner t <> e_vault e (ic_config a))
      | Stake CloseAuthorityNotNone => vault (fun t => t_close t <> None)
      | Stake DelegateNotNone => vault (fun t => t_delegate t <> None)
      | Stake InvalidMint => vault (fun t => t_mint t <> ic_mint a)
      | Stake AmountGreaterThanZero => vault (fun t => 0 < t_amount t)
      | Stake InvalidAccountDataLength => data_len (dat (get w (ic_config a))) <> 192
      | InvalidAccountOwner => foreign e w (ic_config a)
      | AccountAlreadyInitialized => data_len (dat (get w (ic_vault_pda a))) <> 0 \/ ~ zeroed (dat (get w (ic_config a)))
      | AccountNotRentExempt => lam (get w (ic_config a)) < e_rent e 192
      | InvalidArgument => 10000 < bps
      | _ => unspecific x
      end
  | CInitializeValidatorStake a =>
      match x with
      | InvalidAccountOwner => foreign e w (iv_config a) \/ own (get w (iv_vote a)) <> e_votep e
      | InvalidSeeds => iv_stake a <> e_val e (iv_vote a) (iv_config a) \/
          of_config e w (iv_config a) (fun c => exists v, dat (get w (iv_vote a)) = DVote v /\ iv_duna a <> e_duna e v (cfg_duna c))
      | Stake DunaDocumentNotInitialized => head (raw_bytes e (dat (get w (iv_duna a)))) <> Some 1
      | AccountAlreadyInitialized => data_len (dat (get w (iv_stake a))) <> 0
      | AccountNotRentExempt => lam (get w (iv_stake a)) < e_rent e 144
      | _ => unspecific x
      end
  | CInitializeSolStakerStake a =>
      let view P := exists v, c_view cx = Some v /\ P v in
      match x with
      | InvalidAccountOwner => foreign e w (is_config a) \/ foreign e w (is_val a)
      | IncorrectProgramId => is_view a <> e_view e
      | ViewError => c_view cx = None
      | Stake UndelegatedSolStakeAccount => view (fun v => vw_vote v = 0)
      | InvalidSeeds => is_stake a <> e_sol e (is_native a) (is_config a) \/
          view (fun v => is_val a <> e_val e (vw_vote v) (is_config a) \/
                         is_override a <> e_override e (vw_withdrawer v) (is_config a) \/
                         of_config e w (is_config a) (fun c => is_duna a <> e_duna e (vw_withdrawer v) (cfg_duna c)))
      | Stake DunaDocumentNotInitialized => head (raw_bytes e (dat (get w (is_duna a)))) <> Some 1
      | AccountAlreadyInitialized => data_len (dat (get w (is_stake a))) <> 0
      | AccountNotRentExempt => lam (get w (is_stake a)) < e_rent e 168
      | _ => unspecific x
      end
  | CSetAuthority a t =>
      let current c := match t with AuthConfig => cfg_authority c | AuthSlash => cfg_slash c end in
      match x with
      | MissingRequiredSignature => unsigned cx (sa_authority a)
      | InvalidAccountOwner => foreign e w (sa_account a)
      | Stake AuthorityNotSet => of_config e w (sa_account a) (fun c => current c = 0)
      | Stake InvalidAuthority => of_config e w (sa_account a) (fun c => sa_authority a <> current c)
      | _ => unspecific x
      end
  | CUpdateConfig a f =>
      match x with
      | MissingRequiredSignature => unsigned cx (uc_authority a)
      | InvalidAccountOwner => foreign e w (uc_config a)
      | Stake AuthorityNotSet => of_config e w (uc_config a) (fun c => cfg_authority c = 0)
      | Stake InvalidAuthority => of_config e w (uc_config a) (fun c => uc_authority a <> cfg_authority c)
      | InvalidArgument => exists n, f = MaxDeactivationBasisPoints n /\ 10000 < n
      | _ => unspecific x
      end
  | CValidatorStakeTokens a n | CSolStakerStakeTokens a n =>
      match x with
      | InvalidAccountOwner => foreign e w (st_config a) \/ foreign e w (st_stake a)
      | InvalidSeeds => no_stake e w (st_config a) (st_stake a)
      | Stake InvalidAuthority => of_stake e w (st_config a) (st_stake a) (fun d => st_authority a <> authority d)
      | Stake InvalidVaultHolderRewardsSeeds => st_vhr a <> e_holder e (e_vault e (st_config a))
      | Stake IncorrectVaultPdaAccount => st_vault_pda a <> e_vault e (st_config a)
      | Stake IncorrectVaultAccount => of_config e w (st_config a) (fun c => st_vault a <> cfg_vault c)
      | Stake InvalidVaultPdaOwner => (exists n, c = CSolStakerStakeTokens a n) /\
          of_token w (st_vault a) (fun t => t_owner t <> st_vault_pda a)
      | Stake InvalidMint => of_token w (st_vault a) (fun t => t_mint t <> st_mint a)
      | Stake InvalidAmount => n = 0
      | AccountBorrowFailed => shared (st_config a) (st_stake a)
          [st_source a; st_mint a; st_vault a; st_source_auth a; st_pool a; st_ptok a; st_vhr a; st_vault_pda a; st_tokprog a]
      | _ => unspecific x
      end
  | CHarvestValidatorRewards a =>
      match x with
      | InvalidAccountOwner => foreign e w (hv_config a) \/ foreign e w (hv_stake a)
      | InvalidSeeds => no_stake e w (hv_config a) (hv_stake a) \/ hv_vhr a <> e_holder e (e_vault e (hv_config a))
      | Stake InvalidAuthority => of_stake e w (hv_config a) (hv_stake a) (fun d => hv_authority a <> authority d)
      | _ => unspecific x
      end
  | CHarvestSolStakerRewards a =>
      let staker P := of_stake e w (hs_config a) (hs_stake a) P in
      let view P := exists v, c_view cx = Some v /\ P v in
      match x with
      | InvalidAccountOwner => foreign e w (hs_config a) \/ foreign e w (hs_stake a) \/ foreign e w (hs_prev a)
      | InvalidSeeds => no_stake e w (hs_config a) (hs_stake a) \/ hs_vhr a <> e_holder e (e_vault e (hs_config a)) \/
          staker (fun d => hs_prev a <> e_val e (vote d) (hs_config a)) \/
          view (fun v => hs_cur a <> e_val e (vw_vote v) (hs_config a))
      | Stake InvalidAuthority => staker (fun d => hs_authority a <> authority d) \/
          of_stake e w (hs_config a) (hs_prev a) (fun d => hs_prev_auth a <> authority d) \/
          of_stake e w (hs_config a) (hs_cur a) (fun d => hs_cur_auth a <> authority d)
      | Stake IncorrectSolStakeAccount => exists s, sol_at e w (hs_stake a) s /\ hs_native a <> s_native s
      | IncorrectProgramId => hs_view a <> e_view e
      | ViewError => c_view cx = None
      | NotEnoughAccountKeys => hs_keeper a = None /\ exists s v, sol_at e w (hs_stake a) s /\ c_view cx = Some v /\
          (vw_vote v <> vote (s_del s) \/ vw_effective v <> s_lamports s)
      | _ => unspecific x
      end
  | CUnstakeTokens a n =>
      match x with
      | InvalidAccountOwner => foreign e w (un_config a) \/ foreign e w (un_stake a)
      | InvalidSeeds => no_stake e w (un_config a) (un_stake a)
      | MissingRequiredSignature => unsigned cx (un_authority a)
      | Stake InvalidAuthority => of_stake e w (un_config a) (un_stake a) (fun d => un_authority a <> authority d)
      | Stake InvalidVaultHolderRewardsSeeds => un_vhr a <> e_holder e (e_vault e (un_config a))
      | Stake IncorrectVaultPdaAccount => un_vault_pda a <> e_vault e (un_config a)
      | Stake IncorrectVaultAccount => of_config e w (un_config a) (fun c => un_vault a <> cfg_vault c)
      | Stake InvalidDestinationAccount => un_dest a = un_vault a
      | Stake InvalidMint => of_token w (un_vault a) (fun t => t_mint t <> un_mint a)
      | Stake ActiveUnstakeCooldown => of_stake e w (un_config a) (un_stake a) (fun d => c_now cx < cooldown d)
      | Stake InsufficientStakeAmount => of_stake e w (un_config a) (un_stake a) (fun d => staked d < n)
      | Stake MaximumDeactivationAmountExceeded => of_config e w (un_config a) (fun c =>
          of_stake e w (un_config a) (un_stake a) (fun d => staked d * cfg_bps c / 10000 < n <= staked d))
      | AccountBorrowFailed => shared (un_config a) (un_stake a)
          [un_pool a; un_ptok a; un_vhr a; un_vault a; un_mint a; un_vault_pda a; un_tokprog a; un_dest a]
      | _ => unspecific x
      end
  | CSlashValidatorStake a n | CSlashSolStakerStake a n =>
      match x with
      | InvalidAccountOwner => foreign e w (sl_config a) \/ foreign e w (sl_stake a)
      | InvalidSeeds => no_stake e w (sl_config a) (sl_stake a)
      | MissingRequiredSignature => unsigned cx (sl_slash a)
      | Stake InvalidAuthority => sl_vault_auth a <> e_vault e (sl_config a) \/
          of_stake e w (sl_config a) (sl_stake a) (fun d => sl_authority a <> authority d) \/
          of_config e w (sl_config a) (fun c => sl_slash a <> cfg_slash c)
      | Stake AuthorityNotSet => of_config e w (sl_config a) (fun c => cfg_slash c = 0)
      | Stake InvalidVaultHolderRewardsSeeds => sl_vhr a <> e_holder e (e_vault e (sl_config a))
      | Stake IncorrectVaultAccount => of_config e w (sl_config a) (fun c => sl_vault a <> cfg_vault c)
      | Stake InvalidMint => of_token w (sl_vault a) (fun t => t_mint t <> sl_mint a)
      | Stake InvalidAmount => n = 0
      | IncorrectProgramId => sl_tokprog a <> e_token e
      | AccountBorrowFailed => shared (sl_config a) (sl_stake a) [sl_vault a; sl_mint a; sl_vault_auth a]
      | _ => unspecific x
      end
  | CSolStakerMoveTokens a _ =>
      match x with
      | InvalidAccountOwner => foreign e w (mv_config a) \/ foreign e w (mv_source a) \/ foreign e w (mv_dest a)
      | InvalidSeeds => no_stake e w (mv_config a) (mv_source a) \/ no_stake e w (mv_config a) (mv_dest a)
      | MissingRequiredSignature => unsigned cx (mv_authority a)
      | Stake InvalidAuthority =>
          of_stake e w (mv_config a) (mv_source a) (fun d => mv_authority a <> authority d) \/
          of_stake e w (mv_config a) (mv_dest a) (fun d => mv_authority a <> authority d)
      | Stake InvalidVaultHolderRewardsSeeds => mv_vhr a <> e_holder e (e_vault e (mv_config a))
      | AccountBorrowFailed => mv_dest a = mv_source a
      | _ => unspecific x
      end
  | CValidatorOverride a _ =>
      match x with
      | InvalidAccountOwner => foreign e w (ov_config a) \/ foreign e w (ov_stake a)
      | InvalidSeeds => no_stake e w (ov_config a) (ov_stake a)
      | MissingRequiredSignature => unsigned cx (ov_config_auth a)
      | Stake AuthorityNotSet => of_config e w (ov_config a) (fun c => cfg_authority c = 0)
      | Stake InvalidAuthority => of_config e w (ov_config a) (fun c => ov_config_auth a <> cfg_authority c) \/
          of_stake e w (ov_config a) (ov_stake a) (fun d => ov_stake_auth a <> authority d)
      | Stake InvalidVaultHolderRewardsSeeds => ov_vhr a <> e_holder e (e_vault e (ov_config a))
      | _ => unspecific x
      end
  | CValidatorSyncAuthority a =>
      match x with
      | InvalidAccountOwner => foreign e w (sy_config a) \/ own (get w (sy_vote a)) <> e_votep e
      | InvalidSeeds => sy_stake a <> e_val e (sy_vote a) (sy_config a)
      | ExternalAccountDataModified => foreign e w (sy_stake a)
      | _ => unspecific x
      end
  | CHarvestHolderRewards a =>
      match x with
      | InvalidAccountOwner => foreign e w (hh_config a) \/ own (get w (hh_vhr a)) <> e_rewards e
      | InvalidSeeds => hh_vhr a <> e_holder e (e_vault e (hh_config a))
      | Stake IncorrectVaultAccount => of_config e w (hh_config a) (fun c => hh_vault a <> cfg_vault c)
      | Stake InvalidMint => of_token w (hh_vault a) (fun t => t_mint t <> hh_mint a)
      | Stake InvalidAuthority => hh_vault_pda a <> e_vault e (hh_config a)
      | _ => unspecific x
      end
  end.
