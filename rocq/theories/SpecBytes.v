(** Vocabulary for C87: where the fields of the program's accounts lie, and which of
    them each instruction is there to overwrite.  Nothing here mentions a handler. *)
From Coq Require Import String.
From Verif Require Import Base Types Layout Instr Processor Runtime.
Local Open Scope nat_scope.

(** ** Rust's [repr(C)]: every member at the next multiple of its alignment, the whole
    rounded up to the largest alignment. *)
Record member := Member { m_name : string; m_size : nat; m_align : nat }.
Definition int (n : string) (bytes : nat) : member := Member n bytes bytes.   (* u8, u16, u64 *)
Definition arr (n : string) (bytes : nat) : member := Member n bytes 1.       (* [u8; _], Pubkey, PodU128 *)
Definition round_up (n a : nat) : nat := (n + (a - 1)) / a * a.
Fixpoint place (at_ : nat) (ms : list member) : list (string * (nat * nat)) :=
  match ms with
  | [] => []
  | m :: r => let o := round_up at_ (m_align m) in (m_name m, (o, m_size m)) :: place (o + m_size m) r
  end.
Definition struct_align (ms : list member) : nat := fold_right Nat.max 1 (map m_align ms).
Definition struct_end (ms : list member) : nat :=
  fold_left (fun n m => round_up n (m_align m) + m_size m) ms 0.
Definition struct_size (ms : list member) : nat := round_up (struct_end ms) (struct_align ms).
(** A struct as a member of another. *)
Definition inner (n : string) (ms : list member) : member := Member n (struct_size ms) (struct_align ms).
Definition expand (n : string) (ms : list member) (p : list (string * (nat * nat))) : list (string * (nat * nat)) :=
  flat_map (fun x => if String.eqb (fst x) n
                     then map (fun y => ((n ++ "." ++ fst y)%string, (fst (snd x) + fst (snd y), snd (snd y)))) (place 0 ms)
                     else [x]) p.

(** [state/mod.rs] l.229-252, [config.rs] l.11-61, [validator_stake.rs] l.17-37,
    [sol_staker_stake.rs] l.18-40. *)
Definition delegation_struct : list member :=
  [int "staked_amount" 8; int "effective_amount" 8; int "unstake_cooldown" 8; arr "authority" 32;
   arr "validator_vote" 32; arr "last_seen_holder_rewards_per_token" 16;
   arr "last_seen_stake_rewards_per_token" 16].
Definition config_struct : list member :=
  [arr "discriminator" 8; arr "authority" 32; arr "slash_authority" 32; arr "vault" 32;
   int "cooldown_time_seconds" 8; int "token_amount_effective" 8; int "sync_rewards_lamports" 8;
   int "lamports_last" 8; arr "duna_document_hash" 32; arr "accumulated_stake_rewards_per_token" 16;
   int "max_deactivation_basis_points" 2; int "vault_authority_bump" 1; arr "_padding" 5].
Definition validator_struct : list member :=
  [arr "_discriminator" 8; inner "delegation" delegation_struct;
   int "total_staked_lamports_amount" 8; int "total_staked_lamports_amount_min" 8].
Definition staker_struct : list member :=
  [arr "_discriminator" 8; inner "delegation" delegation_struct; int "lamports_amount" 8; arr "sol_stake" 32].

(** Name, offset and length of every field of an account of the program. *)
Definition fields (d : adata) : list (string * (nat * nat)) :=
  match d with
  | DConfig _ => place 0 config_struct
  | DVal _ => expand "delegation" delegation_struct (place 0 validator_struct)
  | DSol _ => expand "delegation" delegation_struct (place 0 staker_struct)
  | _ => []
  end.

(** ** What the fields hold. *)
Definition delegation_values (d : delegation) : list (string * list N) :=
  [("delegation.staked_amount", le_bytes 8 (staked d)); ("delegation.effective_amount", le_bytes 8 (effective d));
   ("delegation.unstake_cooldown", le_bytes 8 (cooldown d)); ("delegation.authority", le_bytes 32 (authority d));
   ("delegation.validator_vote", le_bytes 32 (vote d));
   ("delegation.last_seen_holder_rewards_per_token", le_bytes 16 (last_holder d));
   ("delegation.last_seen_stake_rewards_per_token", le_bytes 16 (last_stake d))]%string.
Definition values (d : adata) : list (string * list N) :=
  match d with
  | DConfig c =>
      [("discriminator", [29; 229; 41; 226; 127; 163; 182; 254]%N); ("authority", le_bytes 32 (cfg_authority c));
       ("slash_authority", le_bytes 32 (cfg_slash c)); ("vault", le_bytes 32 (cfg_vault c));
       ("cooldown_time_seconds", le_bytes 8 (cfg_cooldown c)); ("token_amount_effective", le_bytes 8 (cfg_effective c));
       ("sync_rewards_lamports", le_bytes 8 (cfg_sync c)); ("lamports_last", le_bytes 8 (cfg_last c));
       ("duna_document_hash", le_bytes 32 (cfg_duna c));
       ("accumulated_stake_rewards_per_token", le_bytes 16 (cfg_acc c));
       ("max_deactivation_basis_points", le_bytes 2 (cfg_bps c)); ("vault_authority_bump", le_bytes 1 (cfg_bump c));
       ("_padding", le_bytes 5 (cfg_padding c))]
  | DVal v =>
      ("_discriminator", [197; 173; 152; 124; 46; 252; 77; 146]%N) :: delegation_values (v_del v) ++
      [("total_staked_lamports_amount", le_bytes 8 (v_total v)); ("total_staked_lamports_amount_min", le_bytes 8 (v_min v))]
  | DSol s =>
      ("_discriminator", [192; 163; 150; 81; 162; 252; 198; 62]%N) :: delegation_values (s_del s) ++
      [("lamports_amount", le_bytes 8 (s_lamports s)); ("sol_stake", le_bytes 32 (s_native s))]
  | _ => []
  end%string.

(** An account of one of the program's three types. *)
Definition typed (d : adata) : Prop :=
  match d with DConfig _ | DVal _ | DSol _ => True | _ => False end.

(** ** The fields an instruction is there to overwrite, account by account. *)
Definition config_settles : list string := ["lamports_last"; "accumulated_stake_rewards_per_token"]%string.
Definition config_counts : list string := ("token_amount_effective" :: config_settles)%string.
Definition stake_settles : list string :=
  ["delegation.last_seen_holder_rewards_per_token"; "delegation.last_seen_stake_rewards_per_token"]%string.
Definition stake_counts : list string := ("delegation.effective_amount" :: stake_settles)%string.
Definition stake_changes : list string := ("delegation.staked_amount" :: stake_counts)%string.
Definition stake_pauses : list string := ("delegation.unstake_cooldown" :: stake_changes)%string.

Definition overwrites (c : call) : list (pubkey * list string) :=
  match c with
  | CInitializeConfig _ _ _ _ _ _ _ | CInitializeValidatorStake _ => []
  | CInitializeSolStakerStake a => [(is_val a, ["total_staked_lamports_amount"])]
  | CValidatorStakeTokens a _ | CSolStakerStakeTokens a _ => [(st_config a, config_counts); (st_stake a, stake_changes)]
  | CSlashValidatorStake a _ | CSlashSolStakerStake a _ => [(sl_config a, config_counts); (sl_stake a, stake_changes)]
  | CUnstakeTokens a _ => [(un_config a, config_counts); (un_stake a, stake_pauses)]
  | CSolStakerMoveTokens a _ =>
      [(mv_config a, config_counts); (mv_source a, stake_changes); (mv_dest a, stake_pauses)]
  | CHarvestHolderRewards a => [(hh_config a, config_settles)]
  | CHarvestValidatorRewards a => [(hv_config a, config_settles); (hv_stake a, stake_settles)]
  | CHarvestSolStakerRewards a =>
      [(hs_config a, config_counts);
       (hs_stake a, "delegation.validator_vote" :: "lamports_amount" :: stake_counts);
       (hs_prev a, "total_staked_lamports_amount" :: stake_counts);
       (hs_cur a, "total_staked_lamports_amount" :: stake_counts)]
  | CSetAuthority a t =>
      [(sa_account a, [match t with AuthConfig => "authority" | AuthSlash => "slash_authority" end])]
  | CUpdateConfig a f =>
      [(uc_config a, [match f with
                      | CooldownTimeSeconds _ => "cooldown_time_seconds"
                      | MaxDeactivationBasisPoints _ => "max_deactivation_basis_points"
                      | SyncRewardsLamports _ => "sync_rewards_lamports"
                      end])]
  | CValidatorOverride a _ =>
      [(ov_config a, config_counts); (ov_stake a, "total_staked_lamports_amount_min" :: stake_counts)]
  | CValidatorSyncAuthority a => [(sy_stake a, ["delegation.authority"])]
  end%string.

(** Byte [i] belongs to a field the call is there to overwrite. *)
Definition may_change (c : call) (k : pubkey) (d : adata) (i : nat) : Prop :=
  exists ns n o l, In (k, ns) (overwrites c) /\ In n ns /\ In (n, (o, l)) (fields d) /\ o <= i < o + l.

(** The bytes [b] with those from [o] on replaced by [x]. *)
Definition splice (b : list N) (o : nat) (x : list N) : list N := firstn o b ++ x ++ skipn (o + length x) b.

(** What an instruction that overwrites a single field writes there. *)
Definition new_bytes (w : world) (c : call) : option (list N) :=
  match c with
  | CSetAuthority a _ => Some (le_bytes 32 (sa_new a))
  | CUpdateConfig _ (CooldownTimeSeconds x) => Some (le_bytes 8 x)
  | CUpdateConfig _ (MaxDeactivationBasisPoints x) => Some (le_bytes 2 x)
  | CUpdateConfig _ (SyncRewardsLamports x) => Some (le_bytes 8 x)
  | CValidatorSyncAuthority a =>
      match dat (get w (sy_vote a)) with DVote wd => Some (le_bytes 32 wd) | _ => None end
  | _ => None
  end.
