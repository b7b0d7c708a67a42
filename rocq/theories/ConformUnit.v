(** The program's unit tests ([/repo/program/src/instruction.rs] and
    [/repo/program/src/state/mod.rs], modules [tests]) carried over to the model, see
    [Conform.v].  C27 and C29 speak of all inputs. *)
From Verif Require Import Base Types Layout Instr Math.

Ltac computed := vm_compute; repeat split; discriminate || reflexivity.

(** ** instruction.rs *)
Definition packs (i : instruction) : Prop := unpack (pack i) = Ok i.
Example test_pack_unpack_initialize_config :
  packs (IInitializeConfig 1000 2000 120 500 100 (le_num (repeat 8 32))).
Proof. computed. Qed.
Example test_pack_unpack_initialize_stake : packs IInitializeValidatorStake.
Proof. computed. Qed.
Example test_pack_unpack_stake_tokens : packs (IValidatorStakeTokens 100).
Proof. computed. Qed.
Example test_pack_unpack_unstake_tokens : packs (IUnstakeTokens 50).
Proof. computed. Qed.
Example test_pack_unpack_harvest_holder_rewards : packs IHarvestHolderRewards.
Proof. computed. Qed.
Example test_pack_unpack_harvest_stake_rewards : packs IHarvestValidatorRewards.
Proof. computed. Qed.
Example test_pack_unpack_slash_validator_stake : packs (ISlashValidatorStake 100).
Proof. computed. Qed.
Example test_pack_unpack_set_authority : packs (ISetAuthority AuthConfig).
Proof. computed. Qed.
Example test_pack_unpack_update_config :
  packs (IUpdateConfig (CooldownTimeSeconds 120)) /\ packs (IUpdateConfig (MaxDeactivationBasisPoints 500)).
Proof. computed. Qed.
Example test_pack_unpack_validator_override_staked_lamports : packs (IValidatorOverrideStakedLamports 500).
Proof. computed. Qed.
Example test_pack_unpack_validator_sync_authority : packs IValidatorSyncAuthority.
Proof. computed. Qed.

(** ** state/mod.rs *)
Definition SUPPLY : N := 1000000000 * 1000000000.
Definition gives (r : result N) (P : N -> Prop) : Prop := match r with Ok x => P x | _ => False end.
Example minimum_stake_rewards_per_token :
  gives (calculate_stake_rewards_per_token 1 SUPPLY) (fun x => x <> 0) /\
  gives (calculate_stake_rewards_per_token 0 SUPPLY) (fun x => x = 0).
Proof. computed. Qed.
Example maximum_stake_rewards_per_token :
  gives (calculate_stake_rewards_per_token 18446744073709551615 SUPPLY) (fun _ => True).
Proof. vm_compute. exact I. Qed.
Example minimum_eligible_rewards :
  gives (calculate_eligible_rewards 1 0 SUPPLY) (fun x => x <> 0) /\
  gives (calculate_eligible_rewards 0 0 SUPPLY) (fun x => x = 0).
Proof. computed. Qed.
Example minimum_eligible_rewards_with_one_token :
  gives (calculate_eligible_rewards 1000000000 0 (SUPPLY / 1000000000)) (fun x => x <> 0) /\
  gives (calculate_eligible_rewards 999999999 0 (SUPPLY / 1000000000)) (fun x => x = 0).
Proof. computed. Qed.
Example minimum_eligible_rewards_with_smallest_fractional_token :
  gives (calculate_eligible_rewards SCALE 0 (SUPPLY / SCALE)) (fun x => x <> 0) /\
  gives (calculate_eligible_rewards (SCALE - 1) 0 (SUPPLY / SCALE)) (fun x => x = 0).
Proof. computed. Qed.
Example maximum_eligible_rewards : gives (calculate_eligible_rewards SCALE 0 SUPPLY) (fun _ => True).
Proof. vm_compute. exact I. Qed.
Example wrapping_eligible_rewards :
  gives (calculate_eligible_rewards SCALE (340282366920938463463374607431768211455 - SCALE) SUPPLY)
    (fun x => x = 2000000000000000001) /\
  gives (calculate_eligible_rewards 0 340282366920938463463374607431768211455 SUPPLY) (fun x => x = 1).
Proof. computed. Qed.
