(** Account contents, accounts, the world, the environment and the call context. *)
From Verif Require Import Base.

(** A public key is the number given by its 32 bytes.  [0] is
    [Pubkey::default()], which is also the system program's address and the
    "none" value of [OptionalNonZeroPubkey]. *)
Notation pubkey := N (only parsing).

(** [Delegation], [/repo/program/src/state/mod.rs] l.229-252. *)
Record delegation := Del {
  staked : N;          (* staked_amount *)
  effective : N;       (* effective_amount *)
  cooldown : N;        (* unstake_cooldown *)
  authority : pubkey;
  vote : pubkey;       (* validator_vote *)
  last_holder : N;     (* last_seen_holder_rewards_per_token *)
  last_stake : N;      (* last_seen_stake_rewards_per_token *)
}.

(** [Config], [/repo/program/src/state/config.rs] l.11-61. *)
Record config := Cfg {
  cfg_authority : pubkey;
  cfg_slash : pubkey;        (* slash_authority *)
  cfg_vault : pubkey;
  cfg_cooldown : N;          (* cooldown_time_seconds *)
  cfg_effective : N;         (* token_amount_effective *)
  cfg_sync : N;              (* sync_rewards_lamports *)
  cfg_last : N;              (* lamports_last *)
  cfg_duna : N;              (* duna_document_hash *)
  cfg_acc : N;               (* accumulated_stake_rewards_per_token *)
  cfg_bps : N;               (* max_deactivation_basis_points *)
  cfg_bump : N;              (* vault_authority_bump *)
  cfg_padding : N;           (* _padding *)
}.

(** [ValidatorStake], [/repo/program/src/state/validator_stake.rs] l.17-39. *)
Record vstake := VStake {
  v_del : delegation;
  v_total : N;               (* total_staked_lamports_amount *)
  v_min : N;                 (* total_staked_lamports_amount_min *)
}.

(** [SolStakerStake], [/repo/program/src/state/sol_staker_stake.rs] l.18-40. *)
Record sstake := SStake {
  s_del : delegation;
  s_lamports : N;            (* lamports_amount *)
  s_native : pubkey;         (* sol_stake *)
}.

(** Foreign account contents, only the fields the called programs use.
    SPL token account and mint (spl-token 6.0 [state.rs]); [COption] keys are
    options. *)
Record token := Tok {
  t_mint : pubkey;
  t_owner : pubkey;
  t_amount : N;
  t_delegate : option pubkey;
  t_delegated : N;
  t_close : option pubkey;
  t_frozen : bool;
}.
Record mint := Mnt { m_supply : N; m_decimals : N }.

(** Rewards program [HolderRewards] (32 bytes: accumulator, deposited). *)
Record holder := Hold { h_last : N; h_deposited : N }.

(** The contents of an account.  Bytes that decode as one of the program's own
    initialised accounts are represented by the typed constructor (see
    [Layout.v] for the byte-level decoding); anything else is raw bytes. *)
Inductive adata :=
| DRaw (b : list N)
| DConfig (c : config)
| DVal (v : vstake)
| DSol (s : sstake)
| DToken (t : token)
| DMint (m : mint)
| DHolder (h : holder)
| DVote (withdrawer : pubkey).   (* initialised vote account, withdrawer at bytes 36..68 *)

Record account := Acct { lam : N; own : pubkey; dat : adata }.

(** An address that holds nothing is a system account with no lamports. *)
Definition no_account : account := Acct 0 0 (DRaw []).

Notation world := (gmap N account).

Definition get (w : world) (k : pubkey) : account := default no_account (w !! k).
Definition put (w : world) (k : pubkey) (a : account) : world := <[k := a]> w.
Definition setl (w : world) (k : pubkey) (n : N) : world :=
  put w k (Acct n (own (get w k)) (dat (get w k))).
Definition setd (w : world) (k : pubkey) (d : adata) : world :=
  put w k (Acct (lam (get w k)) (own (get w k)) d).
Definition seto (w : world) (k : pubkey) (o : pubkey) : world :=
  put w k (Acct (lam (get w k)) o (dat (get w k))).

Global Instance delegation_eq : EqDecision delegation. Proof. solve_decision. Defined.
Global Instance config_eq : EqDecision config. Proof. solve_decision. Defined.
Global Instance vstake_eq : EqDecision vstake. Proof. solve_decision. Defined.
Global Instance sstake_eq : EqDecision sstake. Proof. solve_decision. Defined.
Global Instance token_eq : EqDecision token. Proof. solve_decision. Defined.
Global Instance mint_eq : EqDecision mint. Proof. solve_decision. Defined.
Global Instance holder_eq : EqDecision holder. Proof. solve_decision. Defined.
Global Instance adata_eq : EqDecision adata. Proof. solve_decision. Defined.
Global Instance account_eq : EqDecision account. Proof. solve_decision. Defined.

(** Field updates ([x.field = v] in the source). *)
Definition set_staked d x := Del x (effective d) (cooldown d) (authority d) (vote d) (last_holder d) (last_stake d).
Definition set_effective d x := Del (staked d) x (cooldown d) (authority d) (vote d) (last_holder d) (last_stake d).
Definition set_cooldown d x := Del (staked d) (effective d) x (authority d) (vote d) (last_holder d) (last_stake d).
Definition set_authority d x := Del (staked d) (effective d) (cooldown d) x (vote d) (last_holder d) (last_stake d).
Definition set_vote d x := Del (staked d) (effective d) (cooldown d) (authority d) x (last_holder d) (last_stake d).
Definition set_lasts d h s := Del (staked d) (effective d) (cooldown d) (authority d) (vote d) h s.

Definition set_cfg_authority c x := Cfg x (cfg_slash c) (cfg_vault c) (cfg_cooldown c) (cfg_effective c) (cfg_sync c) (cfg_last c) (cfg_duna c) (cfg_acc c) (cfg_bps c) (cfg_bump c) (cfg_padding c).
Definition set_cfg_slash c x := Cfg (cfg_authority c) x (cfg_vault c) (cfg_cooldown c) (cfg_effective c) (cfg_sync c) (cfg_last c) (cfg_duna c) (cfg_acc c) (cfg_bps c) (cfg_bump c) (cfg_padding c).
Definition set_cfg_cooldown c x := Cfg (cfg_authority c) (cfg_slash c) (cfg_vault c) x (cfg_effective c) (cfg_sync c) (cfg_last c) (cfg_duna c) (cfg_acc c) (cfg_bps c) (cfg_bump c) (cfg_padding c).
Definition set_cfg_effective c x := Cfg (cfg_authority c) (cfg_slash c) (cfg_vault c) (cfg_cooldown c) x (cfg_sync c) (cfg_last c) (cfg_duna c) (cfg_acc c) (cfg_bps c) (cfg_bump c) (cfg_padding c).
Definition set_cfg_sync c x := Cfg (cfg_authority c) (cfg_slash c) (cfg_vault c) (cfg_cooldown c) (cfg_effective c) x (cfg_last c) (cfg_duna c) (cfg_acc c) (cfg_bps c) (cfg_bump c) (cfg_padding c).
Definition set_cfg_last c x := Cfg (cfg_authority c) (cfg_slash c) (cfg_vault c) (cfg_cooldown c) (cfg_effective c) (cfg_sync c) x (cfg_duna c) (cfg_acc c) (cfg_bps c) (cfg_bump c) (cfg_padding c).
Definition set_cfg_acc c x := Cfg (cfg_authority c) (cfg_slash c) (cfg_vault c) (cfg_cooldown c) (cfg_effective c) (cfg_sync c) (cfg_last c) (cfg_duna c) x (cfg_bps c) (cfg_bump c) (cfg_padding c).
Definition set_cfg_bps c x := Cfg (cfg_authority c) (cfg_slash c) (cfg_vault c) (cfg_cooldown c) (cfg_effective c) (cfg_sync c) (cfg_last c) (cfg_duna c) (cfg_acc c) x (cfg_bump c) (cfg_padding c).

Definition set_v_del v x := VStake x (v_total v) (v_min v).
Definition set_v_total v x := VStake (v_del v) x (v_min v).
Definition set_v_min v x := VStake (v_del v) (v_total v) x.
Definition set_s_del s x := SStake x (s_lamports s) (s_native s).
Definition set_s_lamports s x := SStake (s_del s) x (s_native s).

Definition set_t_amount t x := Tok (t_mint t) (t_owner t) x (t_delegate t) (t_delegated t) (t_close t) (t_frozen t).

(** What the deployment fixes: program ids, program-derived addresses (hashing
    is not modelled), the rent sysvar, and how foreign typed contents look as
    bytes (only read when somebody passes such an account as a document or
    override account). *)
Record env := Env {
  e_prog : pubkey;                         (* this program *)
  e_token : pubkey;                        (* spl_token::ID *)
  e_rewards : pubkey;                      (* paladin_rewards_program_client::ID *)
  e_votep : pubkey;                        (* solana_program::vote::program::ID *)
  e_view : pubkey;                         (* paladin_sol_stake_view_program_client::ID *)
  e_vault : pubkey -> pubkey;              (* find_vault_pda(config).0, state/mod.rs l.48-50 *)
  e_bump : pubkey -> N;                    (* find_vault_pda(config).1 *)
  e_create_vault : pubkey -> N -> option pubkey;  (* create_vault_pda(config, bump), l.39-45 *)
  e_val : pubkey -> pubkey -> pubkey;      (* find_validator_stake_pda(vote, config), l.109-122 *)
  e_sol : pubkey -> pubkey -> pubkey;      (* find_sol_staker_stake_pda(native, config), l.63-76 *)
  e_override : pubkey -> pubkey -> pubkey; (* find_sol_staker_authority_override_pda, l.79-92 *)
  e_duna : pubkey -> N -> pubkey;          (* find_duna_document_pda(signer, hash), l.216-221 *)
  e_holder : pubkey -> pubkey;             (* HolderRewards::find_pda(owner) *)
  e_pool : pubkey -> pubkey;               (* rewards pool address of a mint *)
  e_rent : N -> N;                         (* Rent::minimum_balance(len) *)
  e_bytes : adata -> list N;               (* bytes of foreign contents *)
}.

(** Answer of the stake view program ([GetStakeActivatingAndDeactivating]):
    delegated vote and withdrawer ([0] = none) and effective lamports. *)
Record view := View { vw_vote : pubkey; vw_withdrawer : pubkey; vw_effective : N }.

(** Everything an instruction sees besides the accounts' contents. *)
Record ctx := Ctx {
  c_signers : list pubkey;     (* keys that signed the transaction *)
  c_writable : list pubkey;    (* keys passed as writable *)
  c_now : N;                   (* Clock unix_timestamp as u64 *)
  c_view : option view;        (* answer of the stake view program; None = it fails *)
  c_pool_acc : N;              (* the rewards pool's accumulator after it updates itself *)
}.

Definition signed (cx : ctx) (k : pubkey) : bool := existsb (N.eqb k) (c_signers cx).
Definition writable (cx : ctx) (k : pubkey) : bool := existsb (N.eqb k) (c_writable cx).
