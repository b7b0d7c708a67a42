(** The JavaScript client, [/repo/clients/js/src]: instruction builders and parsers, account
    codecs, nullable values and errors. The codecs and account roles of [@solana/web3.js] are
    modelled from its documented behaviour; RPC fetching and base58 text are not modelled. *)
From Coq Require Import String.
From Verif Require Import Base Types Layout Instr Processor Runtime Declared Client.

(** ** Accounts: [generated/shared/index.ts] l.114-150 *)
Inductive js_value := Missing | Address (k : pubkey) | Signer (k : pubkey).
(** [getAccountMetaFactory(programAddress, 'programId')] *)
Definition get_account_meta (prog : pubkey) (a : js_value * bool) : account_meta :=
  let (v, is_writable) := a in
  match v with
  | Missing => (prog, Read)
  | Address k => (k, if is_writable then Write else Read)
  | Signer k => (k, if is_writable then SignWrite else Sign)
  end.
Definition value_of (o : option pubkey) : js_value := match o with Some k => Address k | None => Missing end.
(** [if (!accounts.x.value) accounts.x.value = d] *)
Definition or_default (o : option pubkey) (d : pubkey) : js_value := match o with Some k => Address k | None => Address d end.

(** Inputs beside those of the call: optional program and sysvar accounts, the rewards program,
    and the document hash as bytes. A call's token program and hash are not used. *)
Record js_input := JsInput {
  in_token : option pubkey; in_system : option pubkey; in_history : option pubkey;
  in_rewards : pubkey; in_hash : list N }.

(** [get*Instruction], [generated/instructions/*.ts]: [originalAccounts] with the defaults filled
    in, in the order of [instruction.accounts]. [W]: [isWritable: true], [R]: [false]. *)
Definition W (v : js_value) : js_value * bool := (v, true).
Definition R (v : js_value) : js_value * bool := (v, false).
Definition js_accounts (x : client_ids) (i : js_input) (c : call) : list (js_value * bool) :=
  let token := or_default (in_token i) (id_token x) in
  let system := or_default (in_system i) (id_system x) in
  let history := or_default (in_history i) (id_history x) in
  let rewards := Address (in_rewards i) in
  match c with
  | CInitializeConfig a _ _ _ _ _ _ =>               (* initializeConfig.ts *)
      [W (Address (ic_config a)); R (Address (ic_mint a)); W (Address (ic_vault_pda a));
       R (Address (ic_vault a)); W (Address (ic_vhr a)); R system; R rewards]
  | CInitializeValidatorStake a =>                   (* initializeValidatorStake.ts *)
      [R (Address (iv_config a)); R (Address (iv_duna a)); W (Address (iv_stake a)); R (Address (iv_vote a));
       R system]
  | CValidatorStakeTokens a _ =>                     (* validatorStakeTokens.ts *)
      [W (Address (st_config a)); W (Address (st_pool a)); W (Address (st_ptok a)); W (Address (st_stake a));
       R (Address (st_authority a)); W (Address (st_source a)); R (Signer (st_source_auth a));
       R (Address (st_mint a)); W (Address (st_vault_pda a)); W (Address (st_vault a)); W (Address (st_vhr a));
       R token; R rewards]
  | CHarvestHolderRewards a =>                       (* harvestHolderRewards.ts *)
      [W (Address (hh_config a)); W (Address (hh_pool a)); R (Address (hh_ptok a)); W (Address (hh_vault a));
       W (Address (hh_vhr a)); W (Address (hh_vault_pda a)); R (Address (hh_mint a)); R token; R rewards; R system]
  | CHarvestValidatorRewards a =>                    (* harvestValidatorRewards.ts *)
      [W (Address (hv_config a)); R (Address (hv_vhr a)); W (Address (hv_stake a)); W (Address (hv_authority a))]
  | CSlashValidatorStake a _ =>                      (* slashValidatorStake.ts *)
      [W (Address (sl_config a)); W (Address (sl_stake a)); W (Address (sl_authority a)); R (Signer (sl_slash a));
       W (Address (sl_vault a)); R (Address (sl_vhr a)); R (Address (sl_vault_auth a)); W (Address (sl_mint a));
       R token]
  | CSetAuthority a _ =>                             (* setAuthority.ts *)
      [W (Address (sa_account a)); R (Signer (sa_authority a)); R (Address (sa_new a))]
  | CUpdateConfig a _ =>                             (* updateConfig.ts *)
      [W (Address (uc_config a)); R (Signer (uc_authority a))]
  | CInitializeSolStakerStake a =>                   (* initializeSolStakerStake.ts *)
      [R (Address (is_config a)); R (Address (is_duna a)); W (Address (is_stake a)); R (Address (is_override a));
       W (Address (is_val a)); R (Address (is_native a)); R history; R system; R (Address (is_view a))]
  | CSolStakerStakeTokens a _ =>                     (* solStakerStakeTokens.ts *)
      [W (Address (st_config a)); W (Address (st_pool a)); W (Address (st_ptok a)); W (Address (st_stake a));
       W (Address (st_authority a)); W (Address (st_source a)); R (Signer (st_source_auth a));
       R (Address (st_mint a)); W (Address (st_vault_pda a)); W (Address (st_vault a)); W (Address (st_vhr a));
       R token; R rewards]
  | CHarvestSolStakerRewards a =>                    (* harvestSolStakerRewards.ts l.204-278 *)
      [R (Address (hs_view a)); W (Address (hs_config a)); R (Address (hs_vhr a)); W (Address (hs_stake a));
       W (Address (hs_authority a)); R (Address (hs_native a)); W (Address (hs_prev a));
       W (Address (hs_prev_auth a)); W (Address (hs_cur a)); W (Address (hs_cur_auth a)); R history;
       W (value_of (hs_keeper a))]
  | CUnstakeTokens a _ =>                            (* unstakeTokens.ts *)
      [W (Address (un_config a)); W (Address (un_pool a)); W (Address (un_ptok a)); W (Address (un_stake a));
       W (Signer (un_authority a)); W (Address (un_vault a)); W (Address (un_vault_pda a)); W (Address (un_vhr a));
       R (Address (un_mint a)); W (Address (un_dest a)); R token; R rewards]
  | CSlashSolStakerStake a _ =>                      (* slashSolStakerStake.ts *)
      [W (Address (sl_config a)); W (Address (sl_stake a)); W (Address (sl_authority a)); R (Signer (sl_slash a));
       W (Address (sl_mint a)); W (Address (sl_vault a)); R (Address (sl_vhr a)); R (Address (sl_vault_auth a));
       R token]
  | CSolStakerMoveTokens a _ =>                      (* solStakerMoveTokens.ts *)
      [W (Address (mv_config a)); R (Address (mv_vhr a)); R (Signer (mv_authority a)); W (Address (mv_source a));
       W (Address (mv_dest a))]
  | CValidatorOverride a _ =>                        (* validatorOverrideStakedLamports.ts *)
      [W (Address (ov_config a)); R (Signer (ov_config_auth a)); W (Address (ov_stake a));
       W (Address (ov_stake_auth a)); W (Address (ov_vhr a))]
  | CValidatorSyncAuthority a =>                     (* validatorSyncAuthority.ts *)
      [W (Address (sy_config a)); W (Address (sy_stake a)); W (Address (sy_vote a))]
  end.
Definition js_metas (x : client_ids) (i : js_input) (c : call) : list account_meta :=
  map (get_account_meta (id_prog x)) (js_accounts x i c).

(** ** Encoders: [None] is a thrown error *)
Definition encoder (A : Type) : Type := A -> option (list N).
(** [getU8Encoder] ... [getU128Encoder], [getAddressEncoder]: out-of-range values throw. *)
Definition uint (n : nat) : encoder N := fun x => if x <? 256 ^ N.of_nat n then Some (le_bytes n x) else None.
Definition address : encoder pubkey := uint 32.
(** [fixEncoderSize(getBytesEncoder(), n)]: cut or padded with zeros. *)
Definition fix_bytes (n : nat) (b : list N) : list N := firstn n (b ++ repeat 0 n).
(** [getStructEncoder]: one field after the other. *)
Fixpoint struct (l : list (option (list N))) : option (list N) :=
  match l with
  | [] => Some []
  | None :: _ => None
  | Some b :: r => match struct r with Some b' => Some (b ++ b') | None => None end
  end.
Definition js_authority_type (t : authority_type) : option (list N) :=     (* types/authorityType.ts *)
  match t with AuthConfig => uint 1 0 | AuthSlash => uint 1 1 end.
Definition js_config_field (f : config_field) : option (list N) :=         (* types/configField.ts l.38-52 *)
  match f with
  | CooldownTimeSeconds x => struct [uint 1 0; uint 8 x]
  | MaxDeactivationBasisPoints x => struct [uint 1 1; uint 2 x]
  | SyncRewardsLamports x => struct [uint 1 2; uint 8 x]
  end.
(** [get*InstructionDataEncoder] *)
Definition js_data (i : js_input) (c : call) : option (list N) :=
  match c with
  | CInitializeConfig _ slash auth cd bps sync _ =>
      struct [uint 1 0; address slash; address auth; uint 8 cd; uint 2 bps; uint 8 sync; Some (fix_bytes 32 (in_hash i))]
  | CInitializeValidatorStake _ => struct [uint 1 1]
  | CValidatorStakeTokens _ n => struct [uint 1 2; uint 8 n]
  | CHarvestHolderRewards _ => struct [uint 1 3]
  | CHarvestValidatorRewards _ => struct [uint 1 4]
  | CSlashValidatorStake _ n => struct [uint 1 5; uint 8 n]
  | CSetAuthority _ t => struct [uint 1 6; js_authority_type t]
  | CUpdateConfig _ f => struct [uint 1 7; js_config_field f]
  | CInitializeSolStakerStake _ => struct [uint 1 8]
  | CSolStakerStakeTokens _ n => struct [uint 1 9; uint 8 n]
  | CHarvestSolStakerRewards _ => struct [uint 1 10]
  | CUnstakeTokens _ n => struct [uint 1 11; uint 8 n]
  | CSlashSolStakerStake _ n => struct [uint 1 12; uint 8 n]
  | CSolStakerMoveTokens _ n => struct [uint 1 13; uint 8 n]
  | CValidatorOverride _ n => struct [uint 1 14; uint 8 n]
  | CValidatorSyncAuthority _ => struct [uint 1 15]
  end.
(** [get*Instruction] *)
Definition js_build (x : client_ids) (i : js_input) (c : call) : option (list account_meta * list N) :=
  match js_data i c with Some d => Some (js_metas x i c, d) | None => None end.

(** ** Parsers *)
(** [identifyPaladinStakeProgramInstruction], [programs/paladinStakeProgram.ts] l.64-119;
    [containsBytes(data, [n], 0)]. *)
Definition contains_byte (data : list N) (n : N) : bool := match data with b :: _ => b =? n | [] => false end.
Definition js_identify (data : list N) : option N :=
  List.find (contains_byte data) [0; 1; 2; 3; 4; 5; 6; 7; 8; 9; 10; 11; 12; 13; 14; 15].

Definition fail {A} : reader A := fun _ => None.
Definition read_authority_type : reader authority_type :=
  read! t := read_num 1 in match t with 0 => done AuthConfig | 1 => done AuthSlash | _ => fail end.
Definition read_config_field : reader config_field :=
  read! t := read_num 1 in
  match t with
  | 0 => read! v := read_num 8 in done (CooldownTimeSeconds v)
  | 1 => read! v := read_num 2 in done (MaxDeactivationBasisPoints v)
  | 2 => read! v := read_num 8 in done (SyncRewardsLamports v)
  | _ => fail
  end.
(** [getNextOptionalAccount] *)
Definition optional_account (prog k : pubkey) : option pubkey := if k =? prog then None else Some k.

(** [parse*Instruction] of the instruction numbered [kind]: the accounts by name and the decoded
    data. The discriminator is decoded and returned, not compared. Accounts beyond those named are
    not returned, and the program and sysvar accounts are left out here. *)
Definition plain {A} (c : A) : reader (N * A) := read! d := read_num 1 in done (d, c).
Definition with_amount {A} (f : N -> A) : reader (N * A) :=
  read! d := read_num 1 in read! n := read_num 8 in done (d, f n).
Definition js_parser (prog : pubkey) (kind : N) (ks : list pubkey) : reader (N * call) :=
  match kind, ks with
  | 0, config :: mint :: vault_pda :: vault :: vhr :: _system :: _rewards :: _ =>
      read! d := read_num 1 in read! slash := read_num 32 in read! auth := read_num 32 in
      read! cd := read_num 8 in read! bps := read_num 2 in read! sync := read_num 8 in
      read! hash := read_num 32 in
      done (d, CInitializeConfig (InitConfigA config mint vault_pda vault vhr) slash auth cd bps sync hash)
  | 1, config :: duna :: stake :: vote :: _system :: _ =>
      plain (CInitializeValidatorStake (InitValA config duna stake vote))
  | 2, config :: pool :: ptok :: stake :: auth :: source :: source_auth :: mint :: vault_pda :: vault :: vhr ::
       token :: _rewards :: _ =>
      with_amount (CValidatorStakeTokens
        (StakeA config pool ptok stake auth source source_auth mint vault_pda vault vhr token))
  | 3, config :: pool :: ptok :: vault :: vhr :: vault_pda :: mint :: _token :: _rewards :: _system :: _ =>
      plain (CHarvestHolderRewards (HarvestHolderA config pool ptok vault vhr vault_pda mint))
  | 4, config :: vhr :: stake :: auth :: _ =>
      plain (CHarvestValidatorRewards (HarvestValA config vhr stake auth))
  | 5, config :: stake :: auth :: slash :: vault :: vhr :: vault_auth :: mint :: token :: _ =>
      with_amount (CSlashValidatorStake (SlashA config stake auth slash vault vhr vault_auth mint token))
  | 6, account :: auth :: new_auth :: _ =>
      read! d := read_num 1 in read! t := read_authority_type in
      done (d, CSetAuthority (SetAuthA account auth new_auth) t)
  | 7, config :: auth :: _ =>
      read! d := read_num 1 in read! f := read_config_field in done (d, CUpdateConfig (UpdateConfigA config auth) f)
  | 8, config :: duna :: stake :: override :: val :: native :: _history :: _system :: view :: _ =>
      plain (CInitializeSolStakerStake (InitSolA config duna stake override val native view))
  | 9, config :: pool :: ptok :: stake :: auth :: source :: source_auth :: mint :: vault_pda :: vault :: vhr ::
       token :: _rewards :: _ =>
      with_amount (CSolStakerStakeTokens
        (StakeA config pool ptok stake auth source source_auth mint vault_pda vault vhr token))
  | 10, view :: config :: vhr :: stake :: auth :: native :: prev :: prev_auth :: cur :: cur_auth :: _history ::
        keeper :: _ =>
      plain (CHarvestSolStakerRewards
        (HarvestSolA view config vhr stake auth native prev prev_auth cur cur_auth (optional_account prog keeper)))
  | 11, config :: pool :: ptok :: stake :: auth :: vault :: vault_pda :: vhr :: mint :: dest :: token :: _rewards :: _ =>
      with_amount (CUnstakeTokens (UnstakeA config pool ptok stake auth vault vault_pda vhr mint dest token))
  | 12, config :: stake :: auth :: slash :: mint :: vault :: vhr :: vault_auth :: token :: _ =>
      with_amount (CSlashSolStakerStake (SlashA config stake auth slash vault vhr vault_auth mint token))
  | 13, config :: vhr :: auth :: source :: dest :: _ =>
      with_amount (CSolStakerMoveTokens (MoveA config vhr auth source dest))
  | 14, config :: config_auth :: stake :: stake_auth :: vhr :: _ =>
      with_amount (CValidatorOverride (OverrideA config config_auth stake stake_auth vhr))
  | 15, config :: stake :: vote :: _ => plain (CValidatorSyncAuthority (SyncAuthA config stake vote))
  | _, _ => fail
  end.
Definition js_parse (prog : pubkey) (kind : N) (ms : list account_meta) (data : list N) : option (N * call) :=
  from_bytes (js_parser prog kind (map fst ms)) data.

(** ** Nullable values, [hooked/nullableAddress.ts] and [hooked/nullableU64.ts] *)
(** A codec: the declared byte counts of its halves, what is written, what is read (and how far). *)
Record codec (A : Type) := Codec {
  enc_size : nat; dec_size : nat; write : encoder A; read : reader A }.
Arguments Codec {A}. Arguments enc_size {A}. Arguments dec_size {A}. Arguments write {A}. Arguments read {A}.
(** [combineCodec]: throws if the declared sizes differ. *)
Definition combine_codec {A} (c : codec A) : option (codec A) :=
  if (enc_size c =? dec_size c)%nat then Some c else None.
Definition or_none (x : N) : option N := if x =? 0 then None else Some x.
Definition or_zero (o : option N) : N := match o with Some x => x | None => 0 end.
Definition nullable_address : codec (option pubkey) :=
  {| enc_size := 32; dec_size := 32; write o := address (or_zero o);
     read := read! x := read_num 32 in done (or_none x) |}.
Definition nullable_u64 : codec (option N) :=
  {| enc_size := 8; dec_size := 32; write o := uint 8 (or_zero o);
     read := read! x := read_num 8 in done (or_none x) |}.
(** [NullableU64], [/repo/clients/rust/src/hooked/nullable_u64.rs] *)
Definition rust_nullable_u64 (x : N) : option N := if x =? 0 then None else Some x.
Definition rust_nullable_u64_from (o : option N) : N := match o with Some x => x | None => 0 end.

(** ** Account codecs, [generated/accounts/*.ts] and [generated/types/delegation.ts] *)
Record js_config := JsConfig {
  j_disc : list N; j_authority : option pubkey; j_slash : option pubkey; j_vault : pubkey;
  j_cooldown : N; j_effective : N; j_sync : N; j_last : N; j_hash : list N; j_acc : N; j_bps : N;
  j_bump : N; j_padding : list N }.
Definition array (n : nat) : encoder (list N) :=
  fun b => if (length b =? n)%nat && forallb (fun x => x <? 256) b then Some b else None.
Definition js_config_encoder : encoder js_config := fun c =>       (* config.ts l.86-102 *)
  struct [array 8 (j_disc c); write nullable_address (j_authority c); write nullable_address (j_slash c);
          address (j_vault c); uint 8 (j_cooldown c); uint 8 (j_effective c); uint 8 (j_sync c);
          uint 8 (j_last c); Some (fix_bytes 32 (j_hash c)); uint 16 (j_acc c); uint 2 (j_bps c);
          uint 1 (j_bump c); array 5 (j_padding c)].
Definition js_config_decoder : reader js_config :=                 (* config.ts l.104-120 *)
  read! disc := read_bytes 8 in read! a := read nullable_address in read! s := read nullable_address in
  read! v := read_num 32 in read! cd := read_num 8 in read! ef := read_num 8 in read! sy := read_num 8 in
  read! la := read_num 8 in read! du := read_bytes 32 in read! ac := read_num 16 in read! bp := read_num 2 in
  read! bu := read_num 1 in read! pa := read_bytes 5 in
  done (JsConfig disc a s v cd ef sy la du ac bp bu pa).
Definition js_delegation_encoder : encoder delegation := fun d =>
  struct [uint 8 (staked d); uint 8 (effective d); uint 8 (cooldown d); address (authority d); address (vote d);
          uint 16 (last_holder d); uint 16 (last_stake d)].
Definition js_delegation_decoder : reader delegation :=
  read! s := read_num 8 in read! e := read_num 8 in read! c := read_num 8 in
  read! a := read_num 32 in read! v := read_num 32 in read! h := read_num 16 in read! r := read_num 16 in
  done (Del s e c a v h r).
Definition js_val_encoder : encoder (list N * vstake) := fun p =>  (* validatorStake.ts *)
  struct [array 8 (fst p); js_delegation_encoder (v_del (snd p)); uint 8 (v_total (snd p)); uint 8 (v_min (snd p))].
Definition js_val_decoder : reader (list N * vstake) :=
  read! disc := read_bytes 8 in read! d := js_delegation_decoder in read! t := read_num 8 in
  read! m := read_num 8 in done (disc, VStake d t m).
Definition js_sol_encoder : encoder (list N * sstake) := fun p =>  (* solStakerStake.ts *)
  struct [array 8 (fst p); js_delegation_encoder (s_del (snd p)); uint 8 (s_lamports (snd p)); address (s_native (snd p))].
Definition js_sol_decoder : reader (list N * sstake) :=
  read! disc := read_bytes 8 in read! d := js_delegation_decoder in read! l := read_num 8 in
  read! n := read_num 32 in done (disc, SStake d l n).
(** [getConfigSize], [getValidatorStakeSize], [getSolStakerStakeSize] *)
Definition js_config_size : nat := 192.
Definition js_val_size : nat := 144.
Definition js_sol_size : nat := 168.

(** ** Errors *)
(** [#[error(...)]], [/repo/program/src/error.rs] l.13-117. *)
Definition stake_error_message (x : stake_error) : string :=
  match x with
  | AmountGreaterThanZero => "Amount cannot be greater than zero"
  | InvalidTokenOwner => "Invalid token owner"
  | InvalidAccountDataLength => "Invalid account data length"
  | InvalidMint => "Invalid mint"
  | CloseAuthorityNotNone => "Close authority must be none"
  | DelegateNotNone => "Delegate must be none"
  | InvalidAuthority => "Invalid authority"
  | AuthorityNotSet => "Authority is not set"
  | InsufficientStakeAmount => "Amount greater than stake amount"
  | InvalidAmount => "Amount should be greater than 0"
  | MaximumDeactivationAmountExceeded => "Amount exeeds maximum deactivation amount"
  | ActiveUnstakeCooldown => "Active unstake cooldown"
  | IncorrectVaultAccount => "Incorrect vault account"
  | InvalidDestinationAccount => "Invalid destination account"
  | UndelegatedSolStakeAccount => "Undelegated SOL stake account"
  | IncorrectSolStakeAccount => "Incorrect SOL stake account"
  | DunaDocumentNotInitialized => "DUNA document is not initialized"
  | IncorrectVaultPdaAccount => "Incorrect vault PDA account"
  | InvalidVaultPdaOwner => "Invalid vault pda owner"
  | InvalidVaultHolderRewardsSeeds => "Invalid vault holder rewards seeds"
  end%string.
(** [errors/paladinStakeProgram.ts] l.18-69: the exported constants, by name. *)
Definition js_error_constants : list (string * N) :=
  [("ACTIVE_UNSTAKE_COOLDOWN", 14); ("AMOUNT_GREATER_THAN_ZERO", 0); ("AUTHORITY_NOT_SET", 10);
   ("CLOSE_AUTHORITY_NOT_NONE", 6); ("DELEGATE_NOT_NONE", 7); ("DUNA_DOCUMENT_NOT_INITIALIZED", 22);
   ("INCORRECT_SOL_STAKE_ACCOUNT", 20); ("INCORRECT_VAULT_ACCOUNT", 15); ("INCORRECT_VAULT_PDA_ACCOUNT", 23);
   ("INSUFFICIENT_STAKE_AMOUNT", 11); ("INVALID_ACCOUNT_DATA_LENGTH", 3); ("INVALID_AMOUNT", 12);
   ("INVALID_AUTHORITY", 9); ("INVALID_DESTINATION_ACCOUNT", 16); ("INVALID_HOLDER_REWARDS", 21);
   ("INVALID_MINT", 4); ("INVALID_SLASH_AMOUNT", 17); ("INVALID_TOKEN_ACCOUNT_EXTENSION", 8);
   ("INVALID_TOKEN_OWNER", 1); ("INVALID_TRANSFER_HOOK_PROGRAM_ID", 2);
   ("INVALID_VAULT_HOLDER_REWARDS_SEEDS", 25); ("INVALID_VAULT_PDA_OWNER", 24);
   ("MAXIMUM_DEACTIVATION_AMOUNT_EXCEEDED", 13); ("MISSING_TRANSFER_HOOK", 5);
   ("TOTAL_STAKE_AMOUNT_EXCEEDS_SOL_LIMIT", 19); ("UNDELEGATED_SOL_STAKE_ACCOUNT", 18)]%string.
(** [paladinStakeProgramErrorMessages], l.103-131, keyed by those constants. *)
Definition js_error_messages : list (string * string) :=
  [("ACTIVE_UNSTAKE_COOLDOWN", "Active unstake cooldown");
   ("AMOUNT_GREATER_THAN_ZERO", "Amount cannot be greater than zero");
   ("AUTHORITY_NOT_SET", "Authority is not set");
   ("CLOSE_AUTHORITY_NOT_NONE", "Close authority must be none");
   ("DELEGATE_NOT_NONE", "Delegate must be none");
   ("DUNA_DOCUMENT_NOT_INITIALIZED", "DUNA document is not initialized");
   ("INCORRECT_SOL_STAKE_ACCOUNT", "Incorrect SOL stake account");
   ("INCORRECT_VAULT_ACCOUNT", "Incorrect vault account");
   ("INCORRECT_VAULT_PDA_ACCOUNT", "Incorrect vault PDA account");
   ("INSUFFICIENT_STAKE_AMOUNT", "Amount greater than stake amount");
   ("INVALID_ACCOUNT_DATA_LENGTH", "Invalid account data length");
   ("INVALID_AMOUNT", "Amount should be greater than 0");
   ("INVALID_AUTHORITY", "Invalid authority");
   ("INVALID_DESTINATION_ACCOUNT", "Invalid destination account");
   ("INVALID_HOLDER_REWARDS", "Invalid holder rewards");
   ("INVALID_MINT", "Invalid mint");
   ("INVALID_SLASH_AMOUNT", "Invalid slash amount");
   ("INVALID_TOKEN_ACCOUNT_EXTENSION", "Invalid token account extension");
   ("INVALID_TOKEN_OWNER", "Invalid token owner");
   ("INVALID_TRANSFER_HOOK_PROGRAM_ID", "Invalid transfer hook program id");
   ("INVALID_VAULT_HOLDER_REWARDS_SEEDS", "Invalid vault holder rewards seeds");
   ("INVALID_VAULT_PDA_OWNER", "Invalid vault pda owner");
   ("MAXIMUM_DEACTIVATION_AMOUNT_EXCEEDED", "Amount exeeds maximum deactivation amount");
   ("MISSING_TRANSFER_HOOK", "Missing transfer hook");
   ("TOTAL_STAKE_AMOUNT_EXCEEDS_SOL_LIMIT", "Total stake amount exceeds SOL limit");
   ("UNDELEGATED_SOL_STAKE_ACCOUNT", "Undelegated SOL stake account")]%string.
(** [getPaladinStakeProgramErrorMessage(code)], l.134-147 (not in production). *)
Definition js_error_message (code : N) : option string :=
  match List.find (fun p => snd p =? code) js_error_constants with
  | Some (name, _) => option_map snd (List.find (fun p => (fst p =? name)%string) js_error_messages)
  | None => None
  end.
