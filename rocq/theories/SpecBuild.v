(** Vocabulary: what the calls of a builder's setters ask for. *)
From Coq Require Import String Ascii.
From Verif Require Import Base Types Layout Instr Processor Runtime Declared Client Idl SpecIdl RustBuild.
Local Open Scope string_scope.
Local Open Scope list_scope.
Local Open Scope N_scope.

(** [vaultPda] of the description is [vault_pda] in Rust. *)
Definition lower (c : ascii) : string :=
  let n := N_of_ascii c in
  if (65 <=? n) && (n <=? 90) then String "_" (String (ascii_of_N (n + 32)) "") else String c "".
Fixpoint snake (s : string) : string :=
  match s with EmptyString => "" | String c r => lower c ++ snake r end.

(** The value a name was last given. *)
Fixpoint last_of {A} (l : list (string * A)) (n : string) : option A :=
  match l with
  | [] => None
  | (m, v) :: r => match last_of r n with Some w => Some w | None => if String.eqb m n then Some v else None end
  end.
Definition account_settings (l : list setter) : list (string * option pubkey) :=
  flat_map (fun s => match s with SetAccount n k => [(n, Some k)] | SetOptional n o => [(n, o)] | _ => [] end) l.
Definition arg_settings (l : list setter) : list (string * rval) :=
  flat_map (fun s => match s with SetArg n v => [(n, v)] | _ => [] end) l.
Definition extra (l : list setter) : list account_meta :=
  flat_map (fun s => match s with AddRemaining m => [m] | AddRemainings ms => ms | _ => [] end) l.
Definition cpi_account_settings (l : list cpi_setter) : list (string * option pubkey) :=
  flat_map (fun s => match s with CpiAccount n k => [(n, Some k)] | CpiOptional n o => [(n, o)] | _ => [] end) l.
Definition cpi_arg_settings (l : list cpi_setter) : list (string * rval) :=
  flat_map (fun s => match s with CpiArg n v => [(n, v)] | _ => [] end) l.
Definition cpi_extra (l : list cpi_setter) : list (pubkey * bool * bool) :=
  flat_map (fun s => match s with CpiRemaining k w s => [(k, w, s)] | CpiRemainings ms => ms | _ => [] end) l.
Definition chosen (l : list (string * option pubkey)) (n : string) : option pubkey :=
  match last_of l n with Some v => v | None => None end.

(** The arguments of a call by their Rust names. *)
Definition rust_args (c : call) : list (string * rval) :=
  match c with
  | CInitializeConfig _ slash auth cd bps sync duna =>
      [("slash_authority", RKey slash); ("config_authority", RKey auth); ("cooldown_time_seconds", RU64 cd);
       ("max_deactivation_basis_points", RU16 bps); ("sync_rewards_lamports", RU64 sync); ("duna_document_hash", RHash duna)]
  | CValidatorStakeTokens _ n | CSlashValidatorStake _ n | CSolStakerStakeTokens _ n | CSlashSolStakerStake _ n
  | CUnstakeTokens _ n | CSolStakerMoveTokens _ n => [("amount", RU64 n)]
  | CValidatorOverride _ n => [("amount_min", RU64 n)]
  | CSetAuthority _ t => [("authority_type", RAuthority t)]
  | CUpdateConfig _ f => [("config_field", RField f)]
  | _ => []
  end.
(** The settings name every account and argument of the call; well-known accounts may be
    left out or be given right, and no keeper is given where the call has none. *)
Definition asks (x : client_ids) (c : call) (acc : list (string * option pubkey)) (args : list (string * rval)) : Prop :=
  Forall (fun '(n, k) => chosen acc (snake n) = Some k) (named x c) /\
  Forall (fun '(n, k) => ~ In n (map fst (named x c)) -> chosen acc (snake n) = None \/ chosen acc (snake n) = Some k) (well_known x) /\
  (~ In "keeperRecipient" (map fst (named x c)) -> chosen acc "keeper_recipient" = None) /\
  Forall (fun '(n, v) => last_of args n = Some v) (rust_args c).
(** The well-known accounts a call needs which it does not name itself. *)
Definition needs (c : call) : list string :=
  match c with
  | CInitializeConfig _ _ _ _ _ _ _ | CInitializeValidatorStake _ => ["systemProgram"]
  | CHarvestHolderRewards _ => ["tokenProgram"; "systemProgram"]
  | CInitializeSolStakerStake _ => ["sysvarStakeHistory"; "systemProgram"]
  | CHarvestSolStakerRewards _ => ["sysvarStakeHistory"]
  | _ => []
  end.
(** What the documentation of [add_remaining_accounts] says its flags mean. *)
Definition documented (r : pubkey * bool * bool) : account_meta :=
  let '(k, is_writable, is_signer) := r in
  (k, match is_writable, is_signer with true, true => SignWrite | true, false => Write | false, true => Sign | false, false => Read end).
