(** Vocabulary: what a stake account gets out of the lamports arriving at its
    config over a stretch of history, and what it should get. *)
From Coq Require Import QArith.
From Verif Require Import Base Types Instr Processor Runtime History Spec SpecReward.

Local Open Scope N_scope.
Definition q (n : N) : Q := inject_Z (Z.of_N n).

(** Instructions on config [ck] that distribute the lamports which have arrived. *)
Definition distributes (ck : pubkey) (c : call) : Prop :=
  match c with
  | CInitializeConfig _ _ _ _ _ _ _ | CInitializeValidatorStake _ | CInitializeSolStakerStake _
  | CSetAuthority _ _ | CUpdateConfig _ _ | CValidatorSyncAuthority _ => False
  | CValidatorStakeTokens a _ | CSolStakerStakeTokens a _ => st_config a = ck
  | CHarvestHolderRewards a => hh_config a = ck
  | CHarvestValidatorRewards a => hv_config a = ck
  | CHarvestSolStakerRewards a => hs_config a = ck
  | CSlashValidatorStake a _ | CSlashSolStakerStake a _ => sl_config a = ck
  | CUnstakeTokens a _ => un_config a = ck
  | CSolStakerMoveTokens a _ => mv_config a = ck
  | CValidatorOverride a _ => ov_config a = ck
  end.
(** Those that also pay the stake account [k] of [ck] what it is owed. *)
Definition settles_account (e : env) (cx : ctx) (w : world) (ck k : pubkey) (c : call) : Prop :=
  distributes ck c /\
  match c with
  | CValidatorStakeTokens a _ | CSolStakerStakeTokens a _ => k = st_stake a
  | CHarvestValidatorRewards a => k = hv_stake a
  | CHarvestSolStakerRewards a => exists s vw, sol_at e w (hs_stake a) s /\ c_view cx = Some vw /\
      if (vw_effective vw =? s_lamports s) && (vw_vote vw =? vote (s_del s)) then k = hs_stake a
      else settles_with e w ck (hs_stake a) (vote (s_del s)) (vw_vote vw) k
  | CSlashValidatorStake a _ | CSlashSolStakerStake a _ => k = sl_stake a
  | CUnstakeTokens a _ => k = un_stake a
  | CSolStakerMoveTokens a _ => k = mv_source a \/ k = mv_dest a
  | CValidatorOverride a _ => k = ov_stake a
  | _ => False
  end.

(** What [k] should get, as a fraction, of the lamports that arrived at the config
    since they were last distributed: its part of the effective total. *)
Definition fair (w : world) (ck : pubkey) (c : config) (d : delegation) : Q :=
  (q (lam (get w ck) - cfg_last c) * q (effective d) / q (cfg_effective c))%Q.
(** What [k] is owed for lamports already distributed, not rounded. *)
Definition credit (c : config) (d : delegation) : Q := (q (since (cfg_acc c) (last_stake d)) * q (effective d) / q (10 ^ 18))%Q.

(** Less than the accumulator's range has accrued since the account was last paid. *)
Definition in_range (ck : pubkey) (w : world) (c : config) (d : delegation) : Prop :=
  (since (cfg_acc c) (last_stake d) + (lam (get w ck) - cfg_last c) * 10 ^ 18 / cfg_effective c < 2 ^ 128)%N.

(** A stretch of history with, for the stake account [k] of [ck]: the sum [f] of its
    fair parts, the lamports [p] it was paid, and the rounding [r] these involve,
    namely one lamport for each payment and [10^-18] lamports per unit of effective
    stake for each distribution.  [ok] holds before each distribution, and no keeper
    payment goes to the config itself. *)
Inductive ledger (e : env) (ck k : pubkey) (ok : world -> config -> delegation -> Prop) (w0 : world) :
  world -> Q -> N -> Q -> Prop :=
| ledger_start : ledger e ck k ok w0 w0 0%Q 0%N 0%Q
| ledger_other w f p r ev w' : ledger e ck k ok w0 w f p r -> step e w ev w' ->
    (forall cx c, ev = Do cx c -> ~ distributes ck c) ->
    ledger e ck k ok w0 w' f p r
| ledger_distribute w f p r cx c w' cf d : ledger e ck k ok w0 w f p r -> step e w (Do cx c) w' ->
    distributes ck c -> keeper_in c <> Some ck -> ~ settles_account e cx w ck k c ->
    config_at e w ck cf -> stake_of e w ck k = Some d -> ok w cf d ->
    ledger e ck k ok w0 w' (f + fair w ck cf d)%Q p (r + q (effective d) / q (10 ^ 18))%Q
| ledger_settle w f p r cx c w' cf d : ledger e ck k ok w0 w f p r -> step e w (Do cx c) w' ->
    distributes ck c -> keeper_in c <> Some ck -> settles_account e cx w ck k c ->
    config_at e w ck cf -> stake_of e w ck k = Some d -> ok w cf d ->
    ledger e ck k ok w0 w' (f + fair w ck cf d)%Q (p + stake_claim w ck cf d)%N (r + q (effective d) / q (10 ^ 18) + 1)%Q.
