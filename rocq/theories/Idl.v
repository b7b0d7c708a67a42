(** The interface description [/repo/program/idl.json], from which the clients are
    generated, and how such a description is read: instruction data and account
    data as borsh lays them out, account lists with privileges. *)
From Coq Require Import String.
From Verif Require Import Base Types Layout Instr Processor Runtime Declared Client.
Local Open Scope string_scope.
Local Open Scope list_scope.
Local Open Scope N_scope.

Inductive ity := TU8 | TU16 | TU64 | TKey | TArr (t : ity) (n : nat) | TDef (name : string).
Inductive idef :=
| DStruct (fields : list (string * ity))
| DEnum (variants : list (string * list ity))
| DNum (bytes : nat).      (* a little-endian integer; not found in the file, see [idl_missing] *)
Record iaccount := IAccount { ia_name : string; ia_mut : bool; ia_signer : bool; ia_optional : bool }.
Record iinstr := IInstr { ii_name : string; ii_accounts : list iaccount; ii_args : list (string * ity); ii_disc : N }.

(** ** The file *)
Definition idl_instructions : list iinstr := [
  IInstr "InitializeConfig"
    [IAccount "config" true false false;
     IAccount "mint" false false false;
     IAccount "vaultPda" true false false;
     IAccount "vault" false false false;
     IAccount "vaultHolderRewards" true false false;
     IAccount "systemProgram" false false false;
     IAccount "rewardsProgram" false false false]
    [("slashAuthority", TKey); ("configAuthority", TKey); ("cooldownTimeSeconds", TU64); ("maxDeactivationBasisPoints", TU16); ("syncRewardsLamports", TU64); ("dunaDocumentHash", (TArr TU8 32))] 0;
  IInstr "InitializeValidatorStake"
    [IAccount "config" false false false;
     IAccount "dunaDocumentPda" false false false;
     IAccount "validatorStake" true false false;
     IAccount "validatorVote" false false false;
     IAccount "systemProgram" false false false]
    [] 1;
  IInstr "ValidatorStakeTokens"
    [IAccount "config" true false false;
     IAccount "holderRewardsPool" true false false;
     IAccount "holderRewardsPoolTokenAccount" true false false;
     IAccount "validatorStake" true false false;
     IAccount "validatorStakeAuthority" false false false;
     IAccount "sourceTokenAccount" true false false;
     IAccount "sourceTokenAccountAuthority" false true false;
     IAccount "mint" false false false;
     IAccount "vaultPda" true false false;
     IAccount "vault" true false false;
     IAccount "vaultHolderRewards" true false false;
     IAccount "tokenProgram" false false false;
     IAccount "rewardsProgram" false false false]
    [("args", TU64)] 2;
  IInstr "HarvestHolderRewards"
    [IAccount "config" true false false;
     IAccount "holderRewardsPool" true false false;
     IAccount "holderRewardsPoolTokenAccount" false false false;
     IAccount "vault" true false false;
     IAccount "vaultHolderRewards" true false false;
     IAccount "vaultPda" true false false;
     IAccount "mint" false false false;
     IAccount "tokenProgram" false false false;
     IAccount "paladinRewardsProgram" false false false;
     IAccount "systemProgram" false false false]
    [] 3;
  IInstr "HarvestValidatorRewards"
    [IAccount "config" true false false;
     IAccount "vaultHolderRewards" false false false;
     IAccount "validatorStake" true false false;
     IAccount "validatorStakeAuthority" true false false]
    [] 4;
  IInstr "SlashValidatorStake"
    [IAccount "config" true false false;
     IAccount "validatorStake" true false false;
     IAccount "validatorStakeAuthority" true false false;
     IAccount "slashAuthority" false true false;
     IAccount "vault" true false false;
     IAccount "vaultHolderRewards" false false false;
     IAccount "vaultAuthority" false false false;
     IAccount "mint" true false false;
     IAccount "tokenProgram" false false false]
    [("args", TU64)] 5;
  IInstr "SetAuthority"
    [IAccount "account" true false false;
     IAccount "authority" false true false;
     IAccount "newAuthority" false false false]
    [("authorityType", (TDef "AuthorityType"))] 6;
  IInstr "UpdateConfig"
    [IAccount "config" true false false;
     IAccount "configAuthority" false true false]
    [("configField", (TDef "ConfigField"))] 7;
  IInstr "InitializeSolStakerStake"
    [IAccount "config" false false false;
     IAccount "dunaDocumentPda" false false false;
     IAccount "solStakerStake" true false false;
     IAccount "solStakerAuthorityOverride" false false false;
     IAccount "validatorStake" true false false;
     IAccount "solStakerNativeStake" false false false;
     IAccount "sysvarStakeHistory" false false false;
     IAccount "systemProgram" false false false;
     IAccount "solStakeViewProgram" false false false]
    [] 8;
  IInstr "SolStakerStakeTokens"
    [IAccount "config" true false false;
     IAccount "holderRewardsPool" true false false;
     IAccount "holderRewardsPoolTokenAccount" true false false;
     IAccount "solStakerStake" true false false;
     IAccount "solStakerStakeAuthority" true false false;
     IAccount "sourceTokenAccount" true false false;
     IAccount "sourceTokenAccountAuthority" false true false;
     IAccount "mint" false false false;
     IAccount "vaultPda" true false false;
     IAccount "vault" true false false;
     IAccount "vaultHolderRewards" true false false;
     IAccount "tokenProgram" false false false;
     IAccount "rewardsProgram" false false false]
    [("args", TU64)] 9;
  IInstr "HarvestSolStakerRewards"
    [IAccount "solStakeViewProgram" false false false;
     IAccount "config" true false false;
     IAccount "vaultHolderRewards" false false false;
     IAccount "solStakerStake" true false false;
     IAccount "solStakerStakeAuthority" true false false;
     IAccount "solStakerNativeStake" false false false;
     IAccount "previousValidatorStake" true false false;
     IAccount "previousValidatorStakeAuthority" true false false;
     IAccount "currentValidatorStake" true false false;
     IAccount "currentValidatorStakeAuthority" true false false;
     IAccount "sysvarStakeHistory" false false false;
     IAccount "keeperRecipient" true false true]
    [] 10;
  IInstr "UnstakeTokens"
    [IAccount "config" true false false;
     IAccount "holderRewardsPool" true false false;
     IAccount "holderRewardsPoolTokenAccount" true false false;
     IAccount "stake" true false false;
     IAccount "stakeAuthority" true true false;
     IAccount "vault" true false false;
     IAccount "vaultPda" true false false;
     IAccount "vaultHolderRewards" true false false;
     IAccount "mint" false false false;
     IAccount "destinationTokenAccount" true false false;
     IAccount "tokenProgram" false false false;
     IAccount "rewardsProgram" false false false]
    [("amount", TU64)] 11;
  IInstr "SlashSolStakerStake"
    [IAccount "config" true false false;
     IAccount "solStakerStake" true false false;
     IAccount "solStakerStakeAuthority" true false false;
     IAccount "slashAuthority" false true false;
     IAccount "mint" true false false;
     IAccount "vault" true false false;
     IAccount "vaultHolderRewards" false false false;
     IAccount "vaultAuthority" false false false;
     IAccount "tokenProgram" false false false]
    [("args", TU64)] 12;
  IInstr "SolStakerMoveTokens"
    [IAccount "config" true false false;
     IAccount "vaultHolderRewards" false false false;
     IAccount "solStakerAuthority" false true false;
     IAccount "sourceSolStakerStake" true false false;
     IAccount "destinationSolStakerStake" true false false]
    [("amount", TU64)] 13;
  IInstr "ValidatorOverrideStakedLamports"
    [IAccount "config" true false false;
     IAccount "configAuthority" false true false;
     IAccount "validatorStake" true false false;
     IAccount "validatorStakeAuthority" true false false;
     IAccount "vaultHolderRewards" true false false]
    [("amountMin", TU64)] 14;
  IInstr "ValidatorSyncAuthority"
    [IAccount "config" true false false;
     IAccount "validatorStake" true false false;
     IAccount "validatorVote" true false false]
    [] 15].
Definition idl_accounts : list (string * idef) := [
  ("Config", DStruct [("discriminator", (TArr TU8 8)); ("authority", (TDef "OptionalNonZeroPubkey")); ("slashAuthority", (TDef "OptionalNonZeroPubkey")); ("vault", TKey); ("cooldownTimeSeconds", TU64); ("tokenAmountEffective", TU64); ("syncRewardsLamports", TU64); ("lamportsLast", TU64); ("dunaDocumentHash", (TArr TU8 32)); ("accumulatedStakeRewardsPerToken", (TDef "PodU128")); ("maxDeactivationBasisPoints", TU16); ("vaultAuthorityBump", TU8); ("padding", (TArr TU8 5))]);
  ("SolStakerStake", DStruct [("discriminator", (TArr TU8 8)); ("delegation", (TDef "Delegation")); ("lamportsAmount", TU64); ("solStake", TKey)]);
  ("ValidatorStake", DStruct [("discriminator", (TArr TU8 8)); ("delegation", (TDef "Delegation")); ("totalStakedLamportsAmount", TU64); ("totalStakedLamportsAmountMin", TU64)])].
Definition idl_types : list (string * idef) := [
  ("Delegation", DStruct [("stakedAmount", TU64); ("effectiveAmount", TU64); ("unstakeCooldown", TU64); ("authority", TKey); ("validatorVote", TKey); ("lastSeenHolderRewardsPerToken", (TDef "PodU128")); ("lastSeenStakeRewardsPerToken", (TDef "PodU128"))]);
  ("AuthorityType", DEnum [("Config", []); ("Slash", [])]);
  ("ConfigField", DEnum [("CooldownTimeSeconds", [TU64]); ("MaxDeactivationBasisPoints", [TU16]); ("SyncRewardsLamports", [TU64])])].
Definition idl_errors : list (N * string * string) := [
  (0, "AmountGreaterThanZero", "Amount cannot be greater than zero");
  (1, "InvalidTokenOwner", "Invalid token owner");
  (2, "InvalidTransferHookProgramId", "Invalid transfer hook program id");
  (3, "InvalidAccountDataLength", "Invalid account data length");
  (4, "InvalidMint", "Invalid mint");
  (5, "MissingTransferHook", "Missing transfer hook");
  (6, "CloseAuthorityNotNone", "Close authority must be none");
  (7, "DelegateNotNone", "Delegate must be none");
  (8, "InvalidTokenAccountExtension", "Invalid token account extension");
  (9, "InvalidAuthority", "Invalid authority");
  (10, "AuthorityNotSet", "Authority is not set");
  (11, "InsufficientStakeAmount", "Amount greater than stake amount");
  (12, "InvalidAmount", "Amount should be greater than 0");
  (13, "MaximumDeactivationAmountExceeded", "Amount exeeds maximum deactivation amount");
  (14, "ActiveUnstakeCooldown", "Active unstake cooldown");
  (15, "IncorrectVaultAccount", "Incorrect vault account");
  (16, "InvalidDestinationAccount", "Invalid destination account");
  (17, "InvalidSlashAmount", "Invalid slash amount");
  (18, "UndelegatedSolStakeAccount", "Undelegated SOL stake account");
  (19, "TotalStakeAmountExceedsSolLimit", "Total stake amount exceeds SOL limit");
  (20, "IncorrectSolStakeAccount", "Incorrect SOL stake account");
  (21, "InvalidHolderRewards", "Invalid holder rewards");
  (22, "DunaDocumentNotInitialized", "DUNA document is not initialized");
  (23, "IncorrectVaultPdaAccount", "Incorrect vault PDA account");
  (24, "InvalidVaultPdaOwner", "Invalid vault pda owner");
  (25, "InvalidVaultHolderRewardsSeeds", "Invalid vault holder rewards seeds")].
(** Two names are used and not defined. [/repo/scripts/generate-clients.mjs] l.62-118
    supplies them by hand. *)
Definition idl_missing : list (string * idef) := [("PodU128", DNum 16); ("OptionalNonZeroPubkey", DNum 32)].

(** ** Values *)
Inductive ival :=
| VNum (x : N)
| VList (l : list ival)
| VRec (l : list (string * ival))
| VVar (name : string) (l : list ival).

Fixpoint find {A} (l : list (string * A)) (s : string) : option A :=
  match l with [] => None | (n, x) :: l => if String.eqb n s then Some x else find l s end.
Definition sized (n : nat) (x : N) : option (list N) := if x <? 256 ^ N.of_nat n then Some (le_bytes n x) else None.

Fixpoint enc_list (enc : ity -> ival -> option (list N)) (ts : list ity) (vs : list ival) : option (list N) :=
  match ts, vs with
  | [], [] => Some []
  | t :: ts, v :: vs => match enc t v, enc_list enc ts vs with Some a, Some b => Some (a ++ b) | _, _ => None end
  | _, _ => None
  end.
Fixpoint enc_fields (enc : ity -> ival -> option (list N)) (ts : list (string * ity)) (vs : list (string * ival)) : option (list N) :=
  match ts, vs with
  | [], [] => Some []
  | (n, t) :: ts, (m, v) :: vs =>
      if String.eqb n m then match enc t v, enc_fields enc ts vs with Some a, Some b => Some (a ++ b) | _, _ => None end else None
  | _, _ => None
  end.
Fixpoint enc_variant (enc : ity -> ival -> option (list N)) (vs : list (string * list ity)) (i : N) (name : string) (l : list ival)
    : option (list N) :=
  match vs with
  | [] => None
  | (n, ts) :: vs => if String.eqb n name then option_map (cons i) (enc_list enc ts l) else enc_variant enc vs (i + 1) name l
  end.
(** [fuel] bounds how deep type names refer to one another. *)
Fixpoint enc (fuel : nat) (defs : list (string * idef)) (t : ity) (v : ival) {struct fuel} : option (list N) :=
  match fuel with
  | O => None
  | S fuel =>
    match t, v with
    | TU8, VNum x => sized 1 x
    | TU16, VNum x => sized 2 x
    | TU64, VNum x => sized 8 x
    | TKey, VNum x => sized 32 x
    | TArr t n, VList l => enc_list (enc fuel defs) (repeat t n) l
    | TDef s, _ =>
        match find defs s, v with
        | Some (DNum n), VNum x => sized n x
        | Some (DStruct fs), VRec l => enc_fields (enc fuel defs) fs l
        | Some (DEnum vs), VVar name l => enc_variant (enc fuel defs) vs 0 name l
        | _, _ => None
        end
    | _, _ => None
    end
  end.

(** Reading is the reverse. *)
Definition number (n : nat) : reader ival := read! x := read_num n in done (VNum x).
Fixpoint dec_list (dec : ity -> reader ival) (ts : list ity) : reader (list ival) :=
  match ts with [] => done [] | t :: ts => read! v := dec t in read! vs := dec_list dec ts in done (v :: vs) end.
Fixpoint dec_fields (dec : ity -> reader ival) (ts : list (string * ity)) : reader (list (string * ival)) :=
  match ts with [] => done [] | (n, t) :: ts => read! v := dec t in read! vs := dec_fields dec ts in done ((n, v) :: vs) end.
Definition fail {A} : reader A := fun _ => None.
Fixpoint dec (fuel : nat) (defs : list (string * idef)) (t : ity) {struct fuel} : reader ival :=
  match fuel with
  | O => fail
  | S fuel =>
    match t with
    | TU8 => number 1 | TU16 => number 2 | TU64 => number 8 | TKey => number 32
    | TArr t n => read! l := dec_list (dec fuel defs) (repeat t n) in done (VList l)
    | TDef s =>
        match find defs s with
        | Some (DNum n) => number n
        | Some (DStruct fs) => read! l := dec_fields (dec fuel defs) fs in done (VRec l)
        | Some (DEnum vs) => read! i := read_num 1 in
            match nth_error vs (N.to_nat i) with
            | Some (n, ts) => read! l := dec_list (dec fuel defs) ts in done (VVar n l)
            | None => fail
            end
        | None => fail
        end
    end
  end.

(** ** Instructions: the discriminant byte and the arguments in order; the accounts in
    order, an omitted optional account replaced by the program's own address, read-only. *)
Definition find_instr (name : string) : option iinstr := List.find (fun i => String.eqb (ii_name i) name) idl_instructions.
Definition idl_data (defs : list (string * idef)) (name : string) (args : list (string * ival)) : option (list N) :=
  match find_instr name with
  | Some i => option_map (app (le_bytes 1 (ii_disc i))) (enc_fields (enc 4 defs) (ii_args i) args)
  | None => None
  end.
Definition privileges (a : iaccount) : flag :=
  match ia_mut a, ia_signer a with
  | true, true => SignWrite | true, false => Write | false, true => Sign | false, false => Read end.
Fixpoint idl_metas (prog : pubkey) (l : list iaccount) (given : string -> option pubkey) : option (list account_meta) :=
  match l with
  | [] => Some []
  | a :: l =>
      match given (ia_name a), idl_metas prog l given with
      | Some k, Some r => Some ((k, privileges a) :: r)
      | None, Some r => if ia_optional a then Some ((prog, Read) :: r) else None
      | _, None => None
      end
  end.
Definition idl_accounts_of (prog : pubkey) (name : string) (given : string -> option pubkey) : option (list account_meta) :=
  match find_instr name with Some i => idl_metas prog (ii_accounts i) given | None => None end.

(** An account's data by the name of its type. *)
Definition idl_read (defs : list (string * idef)) (name : string) (b : list N) : option ival :=
  match find idl_accounts name with
  | Some (DStruct fs) => option_map fst ((read! l := dec_fields (dec 4 defs) fs in done (VRec l)) b)
  | _ => None
  end.
