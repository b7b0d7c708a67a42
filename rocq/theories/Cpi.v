(** The calls each handler makes to other programs: the instruction it builds (the
    program and the accounts with their privileges), the account infos it passes
    along, and the address its signer seeds stand for.

    The privileges are those of the called instructions: system [Allocate] and
    [Assign]; SPL token [TransferChecked] and [BurnChecked]; [Deposit], [Withdraw]
    and [HarvestRewards] of the rewards program and [GetStakeActivatingAndDeactivating]
    of the stake view program.  The builders of the last two are in crates outside
    /repo; C90 also proves that nothing else is changed by the models of the called
    programs in [External.v]. *)
From Verif Require Import Base Types Layout Instr Math External Processor Runtime.

Record meta := Meta { m_key : pubkey; m_sign : bool; m_write : bool }.
Record invocation := Invoke {
  i_program : pubkey; i_metas : list meta; i_infos : list pubkey; i_seeds : option pubkey }.

Definition ro (k : pubkey) : meta := Meta k false false.
Definition rw (k : pubkey) : meta := Meta k false true.
Definition sro (k : pubkey) : meta := Meta k true false.
Definition srw (k : pubkey) : meta := Meta k true true.

(** The system program is the key of 32 zero bytes. *)
Definition system : pubkey := 0.

Definition transfer_checked_metas (src mnt dst auth : pubkey) : list meta := [rw src; ro mnt; rw dst; sro auth].
Definition burn_checked_metas (acc mnt auth : pubkey) : list meta := [rw acc; rw mnt; sro auth].
Definition allocate_metas (k : pubkey) : list meta := [srw k].
Definition assign_metas (k : pubkey) : list meta := [srw k].
Definition deposit_metas (pool ptok vhr tacc mnt owner tokprog : pubkey) : list meta :=
  [rw pool; rw ptok; rw vhr; rw tacc; ro mnt; srw owner; ro tokprog].
Definition withdraw_metas := deposit_metas.
Definition harvest_metas (pool ptok vhr mnt owner : pubkey) : list meta :=
  [rw pool; ro ptok; rw vhr; ro mnt; srw owner].
Definition view_metas (stake history : pubkey) : list meta := [ro stake; ro history].

(** The vault address of the seeds with the stored bump. *)
Definition seeds_of (e : env) (w : world) (ck : pubkey) : option pubkey :=
  match dat (get w ck) with DConfig c => e_create_vault e ck (cfg_bump c) | _ => None end.

Definition stake_calls (e : env) (k : nat -> pubkey) : list invocation :=
  [ Invoke (e_token e) (transfer_checked_metas (k 5%nat) (k 7%nat) (k 9%nat) (k 6%nat))
      [k 5%nat; k 7%nat; k 9%nat; k 6%nat] None;
    Invoke (e_rewards e)
      (deposit_metas (k 1%nat) (k 2%nat) (k 10%nat) (k 9%nat) (k 7%nat) (k 8%nat) (k 11%nat))
      [k 1%nat; k 2%nat; k 10%nat; k 9%nat; k 7%nat; k 8%nat; k 11%nat] (Some (e_vault e (k 0%nat))) ].

(** [ks] are the accounts of the instruction, in the order of [instruction.rs]. *)
Definition calls (e : env) (ks : list pubkey) (i : instruction) (w : world) : list invocation :=
  let k := key ks in
  match i with
  | IInitializeConfig _ _ _ _ _ _ =>                     (* [initialize_config.rs] l.57-61 *)
      [ Invoke system (assign_metas (e_vault e (k 0%nat))) [k 2%nat] (Some (e_vault e (k 0%nat))) ]
  | IInitializeValidatorStake =>                         (* [initialize_validator_stake.rs] l.110-119 *)
      let pda := Some (e_val e (k 3%nat) (k 0%nat)) in
      [ Invoke system (allocate_metas (k 2%nat)) [k 2%nat] pda;
        Invoke system (assign_metas (k 2%nat)) [k 2%nat] pda ]
  | IValidatorStakeTokens _ => stake_calls e k           (* [validator_stake_tokens.rs] l.143-183 *)
  | IHarvestHolderRewards =>                             (* [harvest_holder_rewards.rs] l.103-121 *)
      [ Invoke (e_rewards e) (harvest_metas (k 1%nat) (k 2%nat) (k 4%nat) (k 6%nat) (k 5%nat))
          [k 1%nat; k 2%nat; k 4%nat; k 6%nat; k 5%nat] (seeds_of e w (k 0%nat)) ]
  | ISlashValidatorStake _ =>                            (* [mod.rs] l.470-492 *)
      match del_of (dat (get w (k 1%nat))) with
      | Ok d =>
          if staked d =? 0 then []
          else [ Invoke (k 8%nat) (burn_checked_metas (k 4%nat) (k 7%nat) (k 6%nat))
                   [k 8%nat; k 4%nat; k 7%nat; k 6%nat] (seeds_of e w (k 0%nat)) ]
      | _ => []
      end
  | IInitializeSolStakerStake =>                         (* [initialize_sol_staker_stake.rs] l.63-66, l.171-183 *)
      let pda := Some (e_sol e (k 5%nat) (k 0%nat)) in
      [ Invoke (k 8%nat) (view_metas (k 5%nat) (k 6%nat)) [k 8%nat; k 5%nat; k 6%nat] None;
        Invoke system (allocate_metas (k 2%nat)) [k 2%nat] pda;
        Invoke system (assign_metas (k 2%nat)) [k 2%nat] pda ]
  | ISolStakerStakeTokens _ => stake_calls e k           (* [sol_staker_stake_tokens.rs] l.152-192 *)
  | IHarvestSolStakerRewards =>                          (* [harvest_sol_staker_rewards.rs] l.114-118 *)
      [ Invoke (k 0%nat) (view_metas (k 5%nat) (k 10%nat)) [k 0%nat; k 5%nat; k 10%nat] None ]
  | IUnstakeTokens _ =>                                  (* [unstake_tokens.rs] l.187-229 *)
      let pda := Some (e_vault e (k 0%nat)) in
      [ Invoke (e_rewards e)
          (withdraw_metas (k 1%nat) (k 2%nat) (k 7%nat) (k 5%nat) (k 8%nat) (k 6%nat) (k 10%nat))
          [k 1%nat; k 2%nat; k 7%nat; k 5%nat; k 8%nat; k 6%nat; k 10%nat] pda;
        Invoke (e_token e) (transfer_checked_metas (k 5%nat) (k 8%nat) (k 9%nat) (k 6%nat))
          [k 5%nat; k 8%nat; k 9%nat; k 6%nat; k 10%nat] pda ]
  | ISlashSolStakerStake _ =>
      match del_of (dat (get w (k 1%nat))) with
      | Ok d =>
          if staked d =? 0 then []
          else [ Invoke (k 8%nat) (burn_checked_metas (k 5%nat) (k 4%nat) (k 7%nat))
                   [k 8%nat; k 5%nat; k 4%nat; k 7%nat] (seeds_of e w (k 0%nat)) ]
      | _ => []
      end
  | _ => []
  end.
