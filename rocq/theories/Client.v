(** The Rust client: instruction builders, account readers, nullable addresses
    and error codes ([/repo/clients/rust/src]). The JavaScript client's generated
    instructions and account readers list the same fields in the same order
    ([/repo/clients/js/src/generated]). *)
From Coq Require Import String.
From Verif Require Import Base Types Layout Instr Processor Runtime Declared.

(** [AccountMeta]: [new(key, signer)] is writable, [new_readonly(key, signer)] is not. *)
Definition account_meta : Type := pubkey * flag.
Definition new (k : pubkey) (signer : bool) : account_meta := (k, if signer then SignWrite else Write).
Definition new_readonly (k : pubkey) (signer : bool) : account_meta := (k, if signer then Sign else Read).

(** Program and sysvar accounts the client adds. *)
Record client_ids := ClientIds {
  id_prog : pubkey; id_system : pubkey; id_rewards : pubkey; id_token : pubkey; id_history : pubkey }.

(** [*::instruction_with_remaining_accounts], [generated/instructions/*.rs]: the accounts. *)
Definition client_metas (x : client_ids) (c : call) (remaining : list account_meta) : list account_meta :=
  let fixed :=
    match c with
    | CInitializeConfig a _ _ _ _ _ _ =>               (* initialize_config.rs *)
        [new (ic_config a) false; new_readonly (ic_mint a) false; new (ic_vault_pda a) false;
         new_readonly (ic_vault a) false; new (ic_vhr a) false; new_readonly (id_system x) false;
         new_readonly (id_rewards x) false]
    | CInitializeValidatorStake a =>                   (* initialize_validator_stake.rs *)
        [new_readonly (iv_config a) false; new_readonly (iv_duna a) false; new (iv_stake a) false;
         new_readonly (iv_vote a) false; new_readonly (id_system x) false]
    | CValidatorStakeTokens a _ =>                     (* validator_stake_tokens.rs *)
        [new (st_config a) false; new (st_pool a) false; new (st_ptok a) false; new (st_stake a) false;
         new_readonly (st_authority a) false; new (st_source a) false; new_readonly (st_source_auth a) true;
         new_readonly (st_mint a) false; new (st_vault_pda a) false; new (st_vault a) false;
         new (st_vhr a) false; new_readonly (st_tokprog a) false; new_readonly (id_rewards x) false]
    | CHarvestHolderRewards a =>                       (* harvest_holder_rewards.rs *)
        [new (hh_config a) false; new (hh_pool a) false; new_readonly (hh_ptok a) false; new (hh_vault a) false;
         new (hh_vhr a) false; new (hh_vault_pda a) false; new_readonly (hh_mint a) false;
         new_readonly (id_token x) false; new_readonly (id_rewards x) false; new_readonly (id_system x) false]
    | CHarvestValidatorRewards a =>                    (* harvest_validator_rewards.rs *)
        [new (hv_config a) false; new_readonly (hv_vhr a) false; new (hv_stake a) false;
         new (hv_authority a) false]
    | CSlashValidatorStake a _ =>                      (* slash_validator_stake.rs *)
        [new (sl_config a) false; new (sl_stake a) false; new (sl_authority a) false;
         new_readonly (sl_slash a) true; new (sl_vault a) false; new_readonly (sl_vhr a) false;
         new_readonly (sl_vault_auth a) false; new (sl_mint a) false; new_readonly (sl_tokprog a) false]
    | CSetAuthority a _ =>                             (* set_authority.rs *)
        [new (sa_account a) false; new_readonly (sa_authority a) true; new_readonly (sa_new a) false]
    | CUpdateConfig a _ =>                             (* update_config.rs *)
        [new (uc_config a) false; new_readonly (uc_authority a) true]
    | CInitializeSolStakerStake a =>                   (* initialize_sol_staker_stake.rs *)
        [new_readonly (is_config a) false; new_readonly (is_duna a) false; new (is_stake a) false;
         new_readonly (is_override a) false; new (is_val a) false; new_readonly (is_native a) false;
         new_readonly (id_history x) false; new_readonly (id_system x) false; new_readonly (is_view a) false]
    | CSolStakerStakeTokens a _ =>                     (* sol_staker_stake_tokens.rs *)
        [new (st_config a) false; new (st_pool a) false; new (st_ptok a) false; new (st_stake a) false;
         new (st_authority a) false; new (st_source a) false; new_readonly (st_source_auth a) true;
         new_readonly (st_mint a) false; new (st_vault_pda a) false; new (st_vault a) false;
         new (st_vhr a) false; new_readonly (st_tokprog a) false; new_readonly (id_rewards x) false]
    | CHarvestSolStakerRewards a =>                    (* harvest_sol_staker_rewards.rs l.44-115 *)
        [new_readonly (hs_view a) false; new (hs_config a) false; new_readonly (hs_vhr a) false;
         new (hs_stake a) false; new (hs_authority a) false; new_readonly (hs_native a) false;
         new (hs_prev a) false; new (hs_prev_auth a) false; new (hs_cur a) false; new (hs_cur_auth a) false;
         new_readonly (id_history x) false;
         match hs_keeper a with Some k => new k false | None => new_readonly (id_prog x) false end]
    | CUnstakeTokens a _ =>                            (* unstake_tokens.rs *)
        [new (un_config a) false; new (un_pool a) false; new (un_ptok a) false; new (un_stake a) false;
         new (un_authority a) true; new (un_vault a) false; new (un_vault_pda a) false; new (un_vhr a) false;
         new_readonly (un_mint a) false; new (un_dest a) false; new_readonly (un_tokprog a) false;
         new_readonly (id_rewards x) false]
    | CSlashSolStakerStake a _ =>                      (* slash_sol_staker_stake.rs *)
        [new (sl_config a) false; new (sl_stake a) false; new (sl_authority a) false;
         new_readonly (sl_slash a) true; new (sl_mint a) false; new (sl_vault a) false;
         new_readonly (sl_vhr a) false; new_readonly (sl_vault_auth a) false; new_readonly (sl_tokprog a) false]
    | CSolStakerMoveTokens a _ =>                      (* sol_staker_move_tokens.rs *)
        [new (mv_config a) false; new_readonly (mv_vhr a) false; new_readonly (mv_authority a) true;
         new (mv_source a) false; new (mv_dest a) false]
    | CValidatorOverride a _ =>                        (* validator_override_staked_lamports.rs *)
        [new (ov_config a) false; new_readonly (ov_config_auth a) true; new (ov_stake a) false;
         new (ov_stake_auth a) false; new (ov_vhr a) false]
    | CValidatorSyncAuthority a =>                     (* validator_sync_authority.rs *)
        [new (sy_config a) false; new (sy_stake a) false; new (sy_vote a) false]
    end in
  fixed ++ remaining.

(** [borsh]: fixed-width little-endian integers, 32-byte keys, one byte for an enum's variant. *)
Definition borsh_u64 (x : N) : list N := le_bytes 8 x.
Definition borsh_u16 (x : N) : list N := le_bytes 2 x.
Definition borsh_key (x : N) : list N := le_bytes 32 x.
Definition borsh_authority_type (t : authority_type) : list N :=   (* generated/types/authority_type.rs *)
  match t with AuthConfig => [0] | AuthSlash => [1] end.
Definition borsh_config_field (f : config_field) : list N :=       (* generated/types/config_field.rs *)
  match f with
  | CooldownTimeSeconds x => 0 :: borsh_u64 x
  | MaxDeactivationBasisPoints x => 1 :: borsh_u16 x
  | SyncRewardsLamports x => 2 :: borsh_u64 x
  end.

(** The same builders: [*InstructionData::new()] then [*InstructionArgs]. *)
Definition client_data (c : call) : list N :=
  match c with
  | CInitializeConfig _ slash auth cd bps sync duna =>
      [0] ++ borsh_key slash ++ borsh_key auth ++ borsh_u64 cd ++ borsh_u16 bps ++ borsh_u64 sync ++ borsh_key duna
  | CInitializeValidatorStake _ => [1]
  | CValidatorStakeTokens _ n => [2] ++ borsh_u64 n
  | CHarvestHolderRewards _ => [3]
  | CHarvestValidatorRewards _ => [4]
  | CSlashValidatorStake _ n => [5] ++ borsh_u64 n
  | CSetAuthority _ t => [6] ++ borsh_authority_type t
  | CUpdateConfig _ f => [7] ++ borsh_config_field f
  | CInitializeSolStakerStake _ => [8]
  | CSolStakerStakeTokens _ n => [9] ++ borsh_u64 n
  | CHarvestSolStakerRewards _ => [10]
  | CUnstakeTokens _ n => [11] ++ borsh_u64 n
  | CSlashSolStakerStake _ n => [12] ++ borsh_u64 n
  | CSolStakerMoveTokens _ n => [13] ++ borsh_u64 n
  | CValidatorOverride _ n => [14] ++ borsh_u64 n
  | CValidatorSyncAuthority _ => [15]
  end.

(** [BorshDeserialize] of a struct: the fields one after the other; trailing bytes
    are left over. *)
Definition reader (A : Type) : Type := list N -> option (A * list N).
Definition read_num (n : nat) : reader N :=
  fun b => if (n <=? length b)%nat then Some (le_num (firstn n b), skipn n b) else None.
Definition read_bytes (n : nat) : reader (list N) :=
  fun b => if (n <=? length b)%nat then Some (firstn n b, skipn n b) else None.
Definition andthen {A B} (r : reader A) (f : A -> reader B) : reader B :=
  fun b => match r b with Some (x, rest) => f x rest | None => None end.
Definition done {A} (x : A) : reader A := fun b => Some (x, b).
Notation "'read!' x := r 'in' k" := (andthen r (fun x => k)) (at level 200, x name, right associativity).

(** [generated/types/delegation.rs] *)
Definition read_delegation : reader delegation :=
  read! s := read_num 8 in read! e := read_num 8 in read! c := read_num 8 in
  read! a := read_num 32 in read! v := read_num 32 in
  read! h := read_num 16 in read! r := read_num 16 in
  done (Del s e c a v h r).
(** [generated/accounts/*.rs]: the discriminator is read, not checked. *)
Definition read_config : reader (list N * config) :=
  read! d := read_bytes 8 in read! a := read_num 32 in read! s := read_num 32 in read! v := read_num 32 in
  read! cd := read_num 8 in read! ef := read_num 8 in read! sy := read_num 8 in read! la := read_num 8 in
  read! du := read_num 32 in read! ac := read_num 16 in read! bp := read_num 2 in read! bu := read_num 1 in
  read! pa := read_num 5 in
  done (d, Cfg a s v cd ef sy la du ac bp bu pa).
Definition read_val : reader (list N * vstake) :=
  read! d := read_bytes 8 in read! dl := read_delegation in read! t := read_num 8 in read! m := read_num 8 in
  done (d, VStake dl t m).
Definition read_sol : reader (list N * sstake) :=
  read! d := read_bytes 8 in read! dl := read_delegation in read! l := read_num 8 in read! n := read_num 32 in
  done (d, SStake dl l n).
(** [from_bytes] *)
Definition from_bytes {A} (r : reader A) (b : list N) : option A := option_map fst (r b).

(** [NullableAddress], [hooked/nullable_address.rs] (a wrapped key, zero for none). *)
Definition nullable_value (k : pubkey) : option pubkey := if k =? 0 then None else Some k.
Definition nullable_from (o : option pubkey) : pubkey := match o with Some k => k | None => 0 end.

(** [StakeError], [/repo/program/src/error.rs] l.12-117 (numbered in order), and the variant's name. *)
Definition stake_error_code (x : stake_error) : N * string :=
  match x with
  | AmountGreaterThanZero => (0, "AmountGreaterThanZero")
  | InvalidTokenOwner => (1, "InvalidTokenOwner")
  | InvalidAccountDataLength => (3, "InvalidAccountDataLength")
  | InvalidMint => (4, "InvalidMint")
  | CloseAuthorityNotNone => (6, "CloseAuthorityNotNone")
  | DelegateNotNone => (7, "DelegateNotNone")
  | InvalidAuthority => (9, "InvalidAuthority")
  | AuthorityNotSet => (10, "AuthorityNotSet")
  | InsufficientStakeAmount => (11, "InsufficientStakeAmount")
  | InvalidAmount => (12, "InvalidAmount")
  | MaximumDeactivationAmountExceeded => (13, "MaximumDeactivationAmountExceeded")
  | ActiveUnstakeCooldown => (14, "ActiveUnstakeCooldown")
  | IncorrectVaultAccount => (15, "IncorrectVaultAccount")
  | InvalidDestinationAccount => (16, "InvalidDestinationAccount")
  | UndelegatedSolStakeAccount => (18, "UndelegatedSolStakeAccount")
  | IncorrectSolStakeAccount => (20, "IncorrectSolStakeAccount")
  | DunaDocumentNotInitialized => (22, "DunaDocumentNotInitialized")
  | IncorrectVaultPdaAccount => (23, "IncorrectVaultPdaAccount")
  | InvalidVaultPdaOwner => (24, "InvalidVaultPdaOwner")
  | InvalidVaultHolderRewardsSeeds => (25, "InvalidVaultHolderRewardsSeeds")
  end%string.
(** [PaladinStakeProgramError], [generated/errors/paladin_stake_program.rs] l.12-90 ([FromPrimitive]). *)
Definition client_errors : list string :=
  ["AmountGreaterThanZero"; "InvalidTokenOwner"; "InvalidTransferHookProgramId"; "InvalidAccountDataLength";
   "InvalidMint"; "MissingTransferHook"; "CloseAuthorityNotNone"; "DelegateNotNone";
   "InvalidTokenAccountExtension"; "InvalidAuthority"; "AuthorityNotSet"; "InsufficientStakeAmount";
   "InvalidAmount"; "MaximumDeactivationAmountExceeded"; "ActiveUnstakeCooldown"; "IncorrectVaultAccount";
   "InvalidDestinationAccount"; "InvalidSlashAmount"; "UndelegatedSolStakeAccount";
   "TotalStakeAmountExceedsSolLimit"; "IncorrectSolStakeAccount"; "InvalidHolderRewards";
   "DunaDocumentNotInitialized"; "IncorrectVaultPdaAccount"; "InvalidVaultPdaOwner";
   "InvalidVaultHolderRewardsSeeds"]%string.
Definition client_error (code : N) : option string := nth_error client_errors (N.to_nat code).
