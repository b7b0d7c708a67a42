(** The account privileges the program declares for each instruction
    ([#[account(..)]] attributes, [/repo/program/src/instruction.rs] l.13-799),
    which the generated clients put into every instruction they build
    ([/repo/clients/rust/src/generated/instructions/*.rs]). *)
From Verif Require Import Base Types Instr.

Inductive flag := Read | Write | Sign | SignWrite.
Definition writes (f : flag) : bool := match f with Write | SignWrite => true | _ => false end.
Definition signs (f : flag) : bool := match f with Sign | SignWrite => true | _ => false end.

Definition declared (i : instruction) : list flag :=
  match i with
  | IInitializeConfig _ _ _ _ _ _ => [Write; Read; Write; Read; Write; Read; Read]              (* l.15-52 *)
  | IInitializeValidatorStake => [Read; Read; Write; Read; Read]                                (* l.67-92 *)
  | IValidatorStakeTokens _ =>                                                                  (* l.101-174 *)
      [Write; Write; Write; Write; Read; Write; Sign; Read; Write; Write; Write; Read; Read]
  | IHarvestHolderRewards => [Write; Write; Read; Write; Write; Write; Read; Read; Read; Read]  (* l.186-240 *)
  | IHarvestValidatorRewards => [Write; Read; Write; Write]                                     (* l.248-270 *)
  | ISlashValidatorStake _ => [Write; Write; Write; Sign; Write; Read; Read; Write; Read]       (* l.279-329 *)
  | ISetAuthority _ => [Write; Sign; Read]                                                      (* l.333-349 *)
  | IUpdateConfig _ => [Write; Sign]                                                            (* l.353-364 *)
  | IInitializeSolStakerStake => [Read; Read; Write; Read; Write; Read; Read; Read; Read]       (* l.371-417 *)
  | ISolStakerStakeTokens _ =>                                                                  (* l.426-500 *)
      [Write; Write; Write; Write; Write; Write; Sign; Read; Write; Write; Write; Read; Read]
  | IHarvestSolStakerRewards =>                                                                 (* l.508-576 *)
      [Read; Write; Read; Write; Write; Read; Write; Write; Write; Write; Read; Write]
  | IUnstakeTokens _ =>                                                                         (* l.586-655 *)
      [Write; Write; Write; Write; SignWrite; Write; Write; Write; Read; Write; Read; Read]
  | ISlashSolStakerStake _ => [Write; Write; Write; Sign; Write; Write; Read; Read; Read]       (* l.664-714 *)
  | ISolStakerMoveTokens _ => [Write; Read; Sign; Write; Write]                                 (* l.718-746 *)
  | IValidatorOverrideStakedLamports _ => [Write; Sign; Write; Write; Write]                    (* l.748-777 *)
  | IValidatorSyncAuthority => [Write; Write; Write]                                            (* l.780-797 *)
  end.

(** The keys of an account list at the positions declared with a privilege. *)
Fixpoint at_flag (p : flag -> bool) (fs : list flag) (ks : list pubkey) : list pubkey :=
  match fs, ks with
  | f :: fs, k :: ks => if p f then k :: at_flag p fs ks else at_flag p fs ks
  | _, _ => []
  end.
Definition may_write (i : instruction) (ks : list pubkey) : list pubkey := at_flag writes (declared i) ks.
Definition must_sign (i : instruction) (ks : list pubkey) : list pubkey := at_flag signs (declared i) ks.
