(** Vocabulary for C88: addresses waiting for their account. *)
From Verif Require Import Base Types Layout Instr Processor Runtime History Spec.

(** Nothing was ever created at [k]. *)
Definition free (w : world) (k : pubkey) : Prop := own (get w k) = 0 /\ dat (get w k) = DRaw [].
(** [k] is where the stake account of some validator or native stake belongs. *)
Definition stake_address (e : env) (k : pubkey) : Prop :=
  (exists v ck, k = e_val e v ck) \/ (exists n ck, k = e_sol e n ck).
(** The event creates_at a stake account at [k]. *)
Definition creates_at (ev : event) (k : pubkey) : Prop :=
  match ev with
  | Do _ (CInitializeValidatorStake a) => iv_stake a = k
  | Do _ (CInitializeSolStakerStake a) => is_stake a = k
  | _ => False
  end.
(** A token account with [n] tokens that only the vault authority of [ck] controls. *)
Definition in_custody (e : env) (w : world) (k ck n : N) : Prop :=
  own (get w k) = e_token e /\
  exists t, dat (get w k) = DToken t /\ t_owner t = e_vault e ck /\ t_delegate t = None /\ t_close t = None /\ t_amount t = n.
(** [k] is the vault of [ck]. *)
Definition vault_of (e : env) (w : world) (k ck : pubkey) : Prop :=
  exists c, config_at e w ck c /\ cfg_vault c = k.
