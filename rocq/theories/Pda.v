(** Derived addresses: [Pubkey::create_program_address] and
    [Pubkey::find_program_address] of solana-program and the seeds of
    [/repo/program/src/state/mod.rs] l.38-154 and l.215-221.

    The hash, the curve test and the 32 bytes of a key are parameters.  The rest
    of the model uses derived addresses through [env]; [env_of] is the
    environment made of the functions below. *)
From Coq Require Import Ascii String.
From Verif Require Import Base Types Layout.

Record hashing := Hashing {
  h_hash : list N -> pubkey;       (* sha256 *)
  h_curve : pubkey -> bool;        (* bytes_are_curve_point *)
  h_bytes : pubkey -> list N;      (* Pubkey::as_ref *)
}.

Definition str (s : string) : list N := map N_of_ascii (list_ascii_of_string s).

Definition MAX_SEEDS : nat := 16.
Definition MAX_SEED_LEN : nat := 32.
Definition PDA_MARKER : list N := str "ProgramDerivedAddress".

(** [PubkeyError] or a key. *)
Inductive created := MaxSeedLengthExceeded | OnCurve | Created (k : pubkey).

Definition create_program_address (h : hashing) (seeds : list (list N)) (prog : pubkey) : created :=
  if (MAX_SEEDS <? length seeds)%nat || existsb (fun s => (MAX_SEED_LEN <? length s)%nat) seeds
  then MaxSeedLengthExceeded
  else let k := h_hash h (List.concat seeds ++ h_bytes h prog ++ PDA_MARKER) in
       if h_curve h k then OnCurve else Created k.

(** Bumps are tried from 255 down to 1; [find_program_address] panics ([None])
    when there is none. *)
Fixpoint try_bumps (h : hashing) (seeds : list (list N)) (prog : pubkey) (bump : nat) : option (pubkey * N) :=
  match bump with
  | O => None
  | S n =>
      match create_program_address h (seeds ++ [[N.of_nat bump]]) prog with
      | Created k => Some (k, N.of_nat bump)
      | OnCurve => try_bumps h seeds prog n
      | MaxSeedLengthExceeded => None
      end
  end.
Definition find_program_address (h : hashing) (seeds : list (list N)) (prog : pubkey) : option (pubkey * N) :=
  try_bumps h seeds prog 255.

(** ** The program's seeds *)
(** [find_vault_pda], l.48-50, [find_config_pda], l.53-55. *)
Definition find_vault_pda h (config prog : pubkey) :=
  find_program_address h [str "token-owner"; h_bytes h config] prog.
Definition find_config_pda h (prog : pubkey) := find_program_address h [str "config"] prog.
(** [find_sol_staker_stake_pda], l.63-76. *)
Definition find_sol_staker_stake_pda h (native config prog : pubkey) :=
  find_program_address h [str "sol_staker_stake"; h_bytes h native; h_bytes h config] prog.
(** [find_sol_staker_authority_override_pda], l.79-92. *)
Definition find_override_pda h (original config prog : pubkey) :=
  find_program_address h [str "sol_staker_authority_override"; h_bytes h original; h_bytes h config] prog.
(** [find_validator_stake_pda], l.109-122. *)
Definition find_validator_stake_pda h (vote config prog : pubkey) :=
  find_program_address h [str "validator_stake"; h_bytes h vote; h_bytes h config] prog.
(** [find_duna_document_pda], l.216-221. *)
Definition find_duna_document_pda h (signer hash duna : pubkey) :=
  find_program_address h [str "consitution"; h_bytes h signer; h_bytes h hash] duna.

(** The seeds given to [invoke_signed] and [create_program_address]:
    [get_config_pda_signer_seeds], l.58-60, [get_vault_pda_signer_seeds], l.125-127,
    [get_sol_staker_authority_override_pda_signer_seeds], l.95-106,
    [get_sol_staker_stake_pda_signer_seeds], l.130-141,
    [get_validator_stake_pda_signer_seeds], l.144-155. *)
Definition config_signer_seeds (bump : N) : list (list N) := [str "config"; [bump]].
Definition vault_signer_seeds h (config : pubkey) (bump : N) : list (list N) :=
  [str "token-owner"; h_bytes h config; [bump]].
Definition override_signer_seeds h (original config : pubkey) (bump : N) : list (list N) :=
  [str "sol_staker_authority_override"; h_bytes h original; h_bytes h config; [bump]].
Definition sol_signer_seeds h (native config : pubkey) (bump : N) : list (list N) :=
  [str "sol_staker_stake"; h_bytes h native; h_bytes h config; [bump]].
Definition val_signer_seeds h (vote config : pubkey) (bump : N) : list (list N) :=
  [str "validator_stake"; h_bytes h vote; h_bytes h config; [bump]].
(** [create_vault_pda], l.39-45. *)
Definition create_vault_pda h (config : pubkey) (bump : N) (prog : pubkey) :=
  create_program_address h (vault_signer_seeds h config bump) prog.

(** The rewards program's addresses ([HolderRewards::find_pda] and the pool). *)
Definition find_holder_rewards_pda h (owner rewards : pubkey) :=
  find_program_address h [str "holder"; h_bytes h owner] rewards.
Definition find_pool_pda h (mint rewards : pubkey) :=
  find_program_address h [str "holder_pool"; h_bytes h mint] rewards.

(** ** The clients' addresses *)
(** [/repo/clients/rust/src/pdas.rs] l.3-41; [id] is [crate::ID]. *)
Definition client_vault h (id config : pubkey) :=
  find_program_address h [str "token-owner"; h_bytes h config] id.
Definition client_sol h (id stake_state config : pubkey) :=
  find_program_address h [str "sol_staker_stake"; h_bytes h stake_state; h_bytes h config] id.
Definition client_override h (id original config : pubkey) :=
  find_program_address h [str "sol_staker_authority_override"; h_bytes h original; h_bytes h config] id.
Definition client_val h (id vote config : pubkey) :=
  find_program_address h [str "validator_stake"; h_bytes h vote; h_bytes h config] id.
(** [findVaultPda], [/repo/clients/js/src/generated/pdas/vault.ts] l.22-36. *)
Definition js_vault h (id authority : pubkey) :=
  find_program_address h [str "token-vault"; h_bytes h authority] id.

(** ** The environment *)
Definition key (r : option (pubkey * N)) : pubkey := match r with Some (k, _) => k | None => 0 end.
Definition bump (r : option (pubkey * N)) : N := match r with Some (_, b) => b | None => 0 end.
Definition env_of (h : hashing) (prog token rewards votep view duna : pubkey)
    (rent : N -> N) (bytes : adata -> list N) : env :=
  Env prog token rewards votep view
      (fun c => key (find_vault_pda h c prog))
      (fun c => bump (find_vault_pda h c prog))
      (fun c b => match create_vault_pda h c b prog with Created k => Some k | _ => None end)
      (fun v c => key (find_validator_stake_pda h v c prog))
      (fun n c => key (find_sol_staker_stake_pda h n c prog))
      (fun a c => key (find_override_pda h a c prog))
      (fun s d => key (find_duna_document_pda h s d duna))
      (fun o => key (find_holder_rewards_pda h o rewards))
      (fun m => key (find_pool_pda h m rewards))
      rent bytes.

(** ** [unpack_delegation_mut_checked], [/repo/program/src/processor/mod.rs] l.242-272 *)
(** Public but not called by any handler. Slicing off the discriminator panics on fewer than 8 bytes. *)
Definition unpack_delegation_checked (e : env) (b : list N) (stake config : pubkey) : result delegation :=
  let* _ := assert (8 <=? length b)%nat in
  let* '(d, derivation) :=
    if bytes_eqb (slice b 0 8) disc_sol then
      let* s := unpack_bytes 168 disc_sol dec_sol b in Ok (s_del s, e_sol e (s_native s) config)
    else if bytes_eqb (slice b 0 8) disc_val then
      let* v := unpack_bytes 144 disc_val dec_val b in Ok (v_del v, e_val e (vote (v_del v)) config)
    else Err InvalidAccountData in
  let* _ := require (stake =? derivation) InvalidSeeds in
  Ok d.
