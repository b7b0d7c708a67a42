(** Vocabulary: leaving by repeated unstaking. *)
From Verif Require Import Base Types Processor Runtime History Spec.

(** From one world to another by unstakes with the same accounts and signers, and
    nothing else. *)
Inductive unstakes (e : env) (a : unstake_accts) (signers : list pubkey) : world -> world -> Prop :=
| unstakes_none w : unstakes e a signers w w
| unstakes_more w cx n w1 w2 : c_signers cx = signers ->
    step e w (Do cx (CUnstakeTokens a n)) w1 -> unstakes e a signers w1 w2 -> unstakes e a signers w w2.

(** A stretch of history every step of which satisfies [P]. *)
Inductive stretch (e : env) (P : world -> event -> Prop) : world -> world -> Prop :=
| stretch_none w : stretch e P w w
| stretch_more w w1 ev w2 : stretch e P w w1 -> P w1 ev -> step e w1 ev w2 -> stretch e P w w2.

(** The stake at [k] of config [ck] is neither slashed nor moved away, and the cap
    on unstaking is below 100 percent. *)
Definition only_unstaked (e : env) (ck k : pubkey) (w : world) (ev : event) : Prop :=
  match ev with
  | Do _ (CSlashValidatorStake a _) | Do _ (CSlashSolStakerStake a _) => sl_stake a <> k
  | Do _ (CSolStakerMoveTokens a _) => mv_source a <> k
  | Do _ (CUnstakeTokens a _) => un_stake a = k -> forall c, config_at e w ck c -> cfg_bps c < 10000
  | _ => True
  end.
