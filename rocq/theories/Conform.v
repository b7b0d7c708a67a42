(** The repository's own integration tests ([/repo/clients/rust/tests/*.rs]) carried
    over to the model.

    These files are not proofs of anything about all inputs.  They check the model
    against the project's tests, which its CI runs against the compiled program, the
    rewards program and the stake view program.  Every test becomes an [Example] of the
    same name.  An instruction goes the whole way: the Rust client's accounts, flags and
    bytes ([Client.v]), then the entry point, the handler and the runtime's checks, and
    at the end of the transaction the rent check ([Tx.v]).

    This file has what [/repo/clients/rust/tests/setup/*.rs] has. *)
From stdpp Require Import gmap.
From Verif Require Import Base Types Layout Instr Math External Processor Runtime Declared Client Tx Demo.

Definition ids : client_ids := ClientIds (e_prog denv) 0 (e_rewards denv) (e_token denv) 56.
(** Transaction fees and the payer's account are left out. *)
Record clock := Clock { now : N; sees : option view; pool_acc : N }.
Definition at_start : clock := Clock 1000 None 0.
Definition seeing (v : view) : clock := Clock 1000 (Some v) 0.
Definition later (t : N) : clock := Clock t None 0.
Definition pool_at (x : N) : clock := Clock 1000 None x.

Definition send_as (k : clock) (metas : list account_meta) (data : list N) (w : world) : result world :=
  process_instruction denv
    (Ctx (map fst (filter (fun m => signs (snd m) = true) metas))
         (map fst (filter (fun m => writes (snd m) = true) metas))
         (now k) (sees k) (pool_acc k))
    (map fst metas) data w.
(** A transaction of one of the program's instructions.  [Panic] also stands for a
    transaction refused at its end; no test expects either. *)
Definition close_tx (w : world) (r : result world) : result world :=
  let* w' := r in if rent_ok denv w w' then Ok (purge w') else Panic.
Definition tx (k : clock) (c : call) (w : world) : result world :=
  close_tx w (send_as k (client_metas ids c []) (client_data c) w).
(** The same instruction with the signature of [who] taken out. *)
Definition unsign (who : pubkey) (m : account_meta) : account_meta :=
  if fst m =? who then (fst m, match snd m with Sign => Read | SignWrite => Write | f => f end) else m.
Definition tx_unsigned (who : pubkey) (k : clock) (c : call) (w : world) : result world :=
  close_tx w (send_as k (map (unsign who) (client_metas ids c [])) (client_data c) w).

Definition holds (r : result world) (P : world -> Prop) : Prop :=
  match r with Ok w => P w | _ => False end.

(** [context.set_account] and small edits of an account. *)
Definition put (w : world) (k : pubkey) (a : account) : world := <[k := a]> w.
Definition fund (w : world) (k : pubkey) (n : N) : world :=
  let a := get w k in put w k (Acct (lam a + n) (own a) (dat a)).
Definition rent (len : N) : N := e_rent denv len.
Definition edit (w : world) (k : pubkey) (f : adata -> adata) : world :=
  let a := get w k in put w k (Acct (lam a) (own a) (f (dat a))).
Definition edit_cfg (w : world) (k : pubkey) (f : config -> config) : world :=
  edit w k (fun d => match d with DConfig c => DConfig (f c) | d => d end).
Definition edit_val (w : world) (k : pubkey) (f : vstake -> vstake) : world :=
  edit w k (fun d => match d with DVal v => DVal (f v) | d => d end).
Definition edit_sol (w : world) (k : pubkey) (f : sstake -> sstake) : world :=
  edit w k (fun d => match d with DSol s => DSol (f s) | d => d end).
Definition wallet : account := Acct 100000000 0 (DRaw []).
Definition junk (len : N) : account := Acct 100000000 (e_prog denv) (DRaw (repeat 5 (N.to_nat len))).

(** Readings used by the assertions. *)
Definition lamports (w : world) (k : pubkey) : N := lam (get w k).
Definition cfg (w : world) (k : pubkey) : config :=
  match dat (get w k) with DConfig c => c | _ => Cfg 0 0 0 0 0 0 0 0 0 0 0 0 end.
Definition val (w : world) (k : pubkey) : vstake :=
  match dat (get w k) with DVal v => v | _ => VStake (Del 0 0 0 0 0 0 0) 0 0 end.
Definition sol (w : world) (k : pubkey) : sstake :=
  match dat (get w k) with DSol s => s | _ => SStake (Del 0 0 0 0 0 0 0) 0 0 end.
Definition tokens (w : world) (k : pubkey) : N :=
  match dat (get w k) with DToken t => t_amount t | _ => 0 end.
Definition size (w : world) (k : pubkey) : N := data_len (dat (get w k)).

(** [setup/mod.rs]: [sign_duna_document], [calculate_stake_rewards_per_token]. *)
Definition duna : N := 7.
Definition document (a : pubkey) : pubkey := e_duna denv a duna.
Definition sign_duna (w : world) (a : pubkey) : world := put w (document a) (Acct 100000000 48 (DRaw [1])).
Definition per_token (rewards amount : N) : N :=
  if amount =? 0 then 0 else rewards * 1000000000000000000 / amount.

(** [setup/config.rs] and [setup/rewards.rs]: everything belonging to the config [c]. *)
Definition authority (c : pubkey) : pubkey := c + 8.
Definition the_mint (c : pubkey) : pubkey := c + 16.
Definition the_vault (c : pubkey) : pubkey := c + 24.
Definition pool_tokens (c : pubkey) : pubkey := c + 32.
Definition vault_pda (c : pubkey) : pubkey := e_vault denv c.
Definition holder_rewards (c : pubkey) : pubkey := e_holder denv (vault_pda c).
Definition the_pool (c : pubkey) : pubkey := e_pool denv (the_mint c).
Definition empty_tokens (mint owner : pubkey) : account :=
  Acct (rent 165) (e_token denv) (DToken (Tok mint owner 0 None 0 None false)).
Definition init_accounts (c : pubkey) (w : world) : world :=
  let w := put w (the_mint c) (Acct (rent 82) (e_token denv) (DMint (Mnt 0 0))) in
  let w := put w (the_pool c) (Acct (rent 112) (e_rewards denv) (DRaw (repeat 1 112))) in
  let w := put w (pool_tokens c) (empty_tokens (the_mint c) (the_pool c)) in
  let w := put w (holder_rewards c) (Acct (2 * rent 32) (e_rewards denv) (DHolder (Hold 0 0))) in
  let w := put w (vault_pda c) (Acct (rent 0) 0 (DRaw [])) in
  let w := put w (the_vault c) (empty_tokens (the_mint c) (vault_pda c)) in
  put w c (Acct (rent CONFIG_LEN) (e_prog denv) (DRaw (repeat 0 (N.to_nat CONFIG_LEN)))).
Definition init_config (c : pubkey) (auth slash cooldown bps sync : N) : call :=
  CInitializeConfig (InitConfigA c (the_mint c) (vault_pda c) (the_vault c) (holder_rewards c))
    slash auth cooldown bps sync duna.
Definition config_with (cooldown bps sync : N) (c : pubkey) (w : world) : result world :=
  tx at_start (init_config c (authority c) (authority c) cooldown bps sync) (init_accounts c w).
Definition new_config : pubkey -> world -> result world := config_with 1 500 1000000.

(** [setup/vote.rs] and [setup/validator_stake.rs]. *)
Definition vote_account (owner withdrawer : pubkey) : account := Acct 5000000000 owner (DVote withdrawer).
Definition val_stake (vote c : pubkey) : pubkey := e_val denv vote c.
Definition init_validator (c vote auth : pubkey) : call :=
  CInitializeValidatorStake (InitValA c (document auth) (val_stake vote c) vote).
Definition new_validator (c vote auth : pubkey) (w : world) : result world :=
  let w := put w vote (vote_account (e_votep denv) auth) in
  let w := sign_duna w auth in
  tx at_start (init_validator c vote auth) (fund w (val_stake vote c) (rent VAL_LEN)).

(** [setup/stake.rs] and [setup/sol_staker_stake.rs]: the native stake account is known
    to the program only through the stake view program's answer. *)
Definition sol_stake (native c : pubkey) : pubkey := e_sol denv native c.
Definition delegated (vote auth amount : N) : view := View vote auth amount.
Definition undelegated (auth : N) : view := View 0 auth 0.
Definition init_sol (c native auth validator_stake view_program : pubkey) : call :=
  CInitializeSolStakerStake (InitSolA c (document auth) (sol_stake native c) (e_override denv auth c)
    validator_stake native view_program).
Definition new_sol_staker (c native vote auth amount : N) (w : world) : result world :=
  tx (seeing (delegated vote auth amount)) (init_sol c native auth (val_stake vote c) (e_view denv))
    (fund (sign_duna w auth) (sol_stake native c) (rent SOL_LEN)).

(** Addresses used by the tests. *)
Notation conf := 1000.
Notation conf2 := 2000.
Notation voteA := 1048.
Notation authA := 1040.
Notation voteB := 1064.
Notation authB := 1056.
Notation native1 := 1080.
Notation sol_auth1 := 1072.
Notation native2 := 1096.
Notation sol_auth2 := 1088.
Notation someone := 1104.
Notation another := 1112.
Notation keeper := 1120.

(** The tests' edit of the config: effective amount, rate, extra lamports. *)
Definition config_at (eff acc extra : N) (w : world) : world :=
  let w := fund w conf extra in
  edit_cfg w conf (fun c => set_cfg_last (set_cfg_acc (set_cfg_effective c eff) acc) (lamports w conf)).
Definition del_at (n eff last : N) (d : delegation) : delegation :=
  set_lasts (set_effective (set_staked d n) eff) (last_holder d) last.
Definition val_at (k : pubkey) (n eff total last : N) (w : world) : world :=
  edit_val w k (fun v => set_v_total (set_v_del v (del_at n eff last (v_del v))) total).
Definition sol_at (k : pubkey) (n eff total last : N) (w : world) : world :=
  edit_sol w k (fun s => set_s_lamports (set_s_del s (del_at n eff last (s_del s))) total).

(** [RewardsManager]'s token holder and [mint_to]. *)
Notation owner := 1200.
Notation owner_tokens := 1208.
Definition holding (n : N) (w : world) : world :=
  put w owner_tokens
    (Acct (rent 165) (e_token denv) (DToken (Tok (the_mint conf) owner n None 0 None false))).
(** A config and a validator. *)
Definition ready : result world := let* w := new_config conf ∅ in new_validator conf voteA authA w.
Definition stakeA : pubkey := val_stake voteA conf.
Definition stakeB : pubkey := val_stake voteB conf.

Ltac checked := vm_compute; repeat split; reflexivity.
