(** Vocabulary: what the errors that C73 leaves open say.  [cause e cx w c x] is what
    must be the case, in the accounts as they were, when the call [c] fails with
    such an error [x]; [True] for the errors described by C73 and C83. *)
From Verif Require Import Base Types Layout Instr Processor Runtime History Spec SpecOver.

(** What a call expects to find in an account. *)
Inductive what := AConfig | AValidator | AStaker | AStake | AToken | AMint | AHolder | AVote.
Definition fits (q : what) (d : adata) : bool :=
  match q, d with
  | AConfig, DConfig _ | AValidator, DVal _ | AStaker, DSol _ | AStake, DVal _ | AStake, DSol _
  | AToken, DToken _ | AMint, DMint _ | AHolder, DHolder _ | AVote, DVote _ => true
  | _, _ => false
  end.
(** How it complains about anything else: data of the right length lacks the mark
    of an initialised account, other data is of the wrong kind. *)
Definition sizes (q : what) : list N :=
  match q with
  | AConfig => [192] | AValidator => [144] | AStaker => [168] | AStake => [144; 168]
  | AToken => [165] | AMint => [82] | AHolder | AVote => []
  end.
Definition complaint (q : what) (d : adata) : error :=
  match q with
  | AHolder => BorshIoError
  | _ => if existsb (N.eqb (data_len d)) (sizes q) then UninitializedAccount else InvalidAccountData
  end.
(** The accounts a call reads, by what it expects in them. *)
Definition reads (c : call) : list (pubkey * what) :=
  match c with
  | CInitializeConfig a _ _ _ _ _ _ => [(ic_mint a, AMint); (ic_vault a, AToken)]
  | CInitializeValidatorStake a => [(iv_config a, AConfig); (iv_vote a, AVote)]
  | CInitializeSolStakerStake a => [(is_config a, AConfig); (is_val a, AValidator)]
  | CSetAuthority a _ => [(sa_account a, AConfig)]
  | CUpdateConfig a _ => [(uc_config a, AConfig)]
  | CValidatorStakeTokens a _ =>
      [(st_config a, AConfig); (st_stake a, AValidator); (st_vhr a, AHolder); (st_vault a, AToken); (st_mint a, AMint)]
  | CSolStakerStakeTokens a _ =>
      [(st_config a, AConfig); (st_stake a, AStaker); (st_vhr a, AHolder); (st_vault a, AToken); (st_mint a, AMint)]
  | CHarvestValidatorRewards a => [(hv_config a, AConfig); (hv_stake a, AValidator); (hv_vhr a, AHolder)]
  | CHarvestSolStakerRewards a =>
      [(hs_config a, AConfig); (hs_stake a, AStaker); (hs_vhr a, AHolder); (hs_prev a, AValidator); (hs_cur a, AValidator)]
  | CUnstakeTokens a _ =>
      [(un_config a, AConfig); (un_stake a, AStake); (un_vhr a, AHolder); (un_vault a, AToken); (un_mint a, AMint)]
  | CSlashValidatorStake a _ =>
      [(sl_config a, AConfig); (sl_stake a, AValidator); (sl_vhr a, AHolder); (sl_vault a, AToken); (sl_mint a, AMint)]
  | CSlashSolStakerStake a _ =>
      [(sl_config a, AConfig); (sl_stake a, AStaker); (sl_vhr a, AHolder); (sl_vault a, AToken); (sl_mint a, AMint)]
  | CSolStakerMoveTokens a _ =>
      [(mv_config a, AConfig); (mv_source a, AStaker); (mv_dest a, AStaker); (mv_vhr a, AHolder)]
  | CValidatorOverride a _ => [(ov_config a, AConfig); (ov_stake a, AValidator); (ov_vhr a, AHolder)]
  | CValidatorSyncAuthority a => [(sy_config a, AConfig); (sy_vote a, AVote)]
  | CHarvestHolderRewards a => [(hh_config a, AConfig); (hh_vault a, AToken)]
  end.
Definition unreadable (w : world) (k : pubkey) (q : what) (x : error) : Prop :=
  fits q (dat (get w k)) = false /\ x = complaint q (dat (get w k)).

(** The accounts a call hands to other programs. *)
Definition handed (c : call) : list pubkey :=
  match c with
  | CValidatorStakeTokens a _ | CSolStakerStakeTokens a _ =>
      [st_source a; st_mint a; st_vault a; st_source_auth a; st_pool a; st_ptok a; st_vhr a; st_vault_pda a; st_tokprog a]
  | CUnstakeTokens a _ =>
      [un_pool a; un_ptok a; un_vhr a; un_vault a; un_mint a; un_vault_pda a; un_tokprog a; un_dest a]
  | CSlashValidatorStake a _ | CSlashSolStakerStake a _ => [sl_vault a; sl_mint a; sl_vault_auth a]
  | _ => []
  end.
(** The calls in which the token program, or the rewards program looking at a token
    account, has a say, and those that use the rewards program. *)
Definition with_tokens (c : call) : Prop :=
  match c with
  | CValidatorStakeTokens _ _ | CSolStakerStakeTokens _ _ | CUnstakeTokens _ _
  | CSlashValidatorStake _ _ | CSlashSolStakerStake _ _ | CHarvestHolderRewards _ => True
  | _ => False
  end.
Definition uses_pool (c : call) : Prop :=
  match c with
  | CValidatorStakeTokens _ _ | CSolStakerStakeTokens _ _ | CUnstakeTokens _ _ | CHarvestHolderRewards _ => True
  | _ => False
  end.
(** The vault authority of a holder harvest. *)
Definition of_vault_pda (c : call) (P : pubkey -> Prop) : Prop :=
  match c with CHarvestHolderRewards a => P (hh_vault_pda a) | _ => False end.

Definition cause (e : env) (cx : ctx) (w : world) (c : call) (x : error) : Prop :=
  match x with
  | InvalidAccountData | UninitializedAccount | BorshIoError =>
      (exists k q, In (k, q) (reads c) /\ unreadable w k q x) \/
      (x = InvalidAccountData /\ exists a v, c = CInitializeSolStakerStake a /\ c_view cx = Some v /\ vw_withdrawer v = 0)
  | TokenError => with_tokens c
  | RewardsError => uses_pool c
  | SystemError => False
  | InsufficientFunds => of_vault_pda c (fun k => lam (get w k) < e_rent e 0)
  | ExternalAccountLamportSpend => of_vault_pda c (fun k => own (get w k) <> e_prog e)
  | ReadonlyAccountModified =>
      exists w' k, handler e cx c w = Ok w' /\ get w' k <> get w k /\ ~ In k (c_writable cx)
  | UnbalancedInstruction =>
      exists k, In k (payees c) /\ (In k (handed c) \/ In (k, AConfig) (reads c))
  | _ => True
  end.
