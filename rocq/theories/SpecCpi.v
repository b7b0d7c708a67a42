(** Vocabulary: what the runtime allows a program to ask of another one. *)
From Verif Require Import Base Types Layout Instr Processor Runtime Cpi.

(** A program called must be among the accounts of the instruction; so must every
    account named in the call, which must also be passed along.  An account is
    writable only if the caller was given it as writable, and signs only if it
    signed already or the signer seeds are those of its address. *)
Record permitted (cx : ctx) (ks : list pubkey) (v : invocation) : Prop := {
  p_program : In (i_program v) ks;
  p_infos : forall k, In k (i_infos v) -> In k ks;
  p_passed : forall m, In m (i_metas v) -> In (m_key m) (i_infos v);
  p_write : forall m, In m (i_metas v) -> m_write m = true -> writable cx (m_key m) = true;
  p_sign : forall m, In m (i_metas v) -> m_sign m = true ->
    signed cx (m_key m) = true \/ i_seeds v = Some (m_key m) }.

(** An instruction goes through, calls to other programs included. *)
Definition executes (e : env) (cx : ctx) (ks : list pubkey) (i : instruction) (w w' : world) : Prop :=
  exists c, accounts_of e ks i = Ok c /\ run e cx c w = Ok w' /\
            forall v, In v (calls e ks i w) -> permitted cx ks v.

(** The accounts the documentation names as programs and that the handlers do not
    look at: position and program. *)
Definition named (e : env) (i : instruction) : list (nat * pubkey) :=
  match i with
  | IInitializeConfig _ _ _ _ _ _ => [(5%nat, system)]
  | IInitializeValidatorStake => [(4%nat, system)]
  | IInitializeSolStakerStake => [(7%nat, system)]
  | IValidatorStakeTokens _ | ISolStakerStakeTokens _ => [(12%nat, e_rewards e)]
  | IHarvestHolderRewards => [(8%nat, e_rewards e)]
  | IUnstakeTokens _ => [(11%nat, e_rewards e)]
  | _ => []
  end.
