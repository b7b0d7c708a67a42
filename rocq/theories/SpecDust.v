(** Vocabulary: what becomes, over a history, of the staking rewards arriving at a
    config, for all its stake accounts together. *)
From Verif Require Import Base Types Instr Processor Runtime History Spec SpecReward SpecShare.

(** What all the stake accounts of [ck] are owed for lamports already distributed, in
    units of [10^-18] lamports. *)
Definition credits (e : env) (w : world) (ck : pubkey) (c : config) : N :=
  sum_of e w ck (fun d => since (cfg_acc c) (last_stake d) * effective d).
(** What they would be paid now in staking rewards, in lamports, and their number. *)
Definition stake_claims (e : env) (w : world) (ck : pubkey) (c : config) : N := sum_of e w ck (stake_claim w ck c).
Definition stakers (e : env) (w : world) (ck : pubkey) : N := sum_of e w ck (fun _ => 1).
(** Lamports that the next distribution shares out. *)
Definition waiting (w : world) (ck : pubkey) (c : config) : N :=
  if cfg_effective c =? 0 then 0 else lam (get w ck) - cfg_last c.
Definition claim_of (e : env) (w : world) (ck : pubkey) (c : config) (k : pubkey) : N :=
  match stake_of e w ck k with Some d => stake_claim w ck c d | None => 0 end.

(** A stretch of history with, for the config [ck]: the lamports [a] distributed, the
    lamports [p] paid to the stake accounts settled, the sum [t] of the effective
    totals over which they were distributed, and the number [m] of payments.  [ok]
    holds for each stake account before each distribution, and no keeper payment goes
    to the config itself. *)
Inductive books (e : env) (ck : pubkey) (ok : world -> config -> delegation -> Prop) (w0 : world) :
  world -> N -> N -> N -> N -> Prop :=
| books_start : books e ck ok w0 w0 0 0 0 0
| books_other w a p t m ev w' : books e ck ok w0 w a p t m -> step e w ev w' ->
    (forall cx c, ev = Do cx c -> ~ distributes ck c) ->
    books e ck ok w0 w' a p t m
| books_distribute w a p t m cx c w' cf ks : books e ck ok w0 w a p t m -> step e w (Do cx c) w' ->
    distributes ck c -> keeper_in c <> Some ck -> config_at e w ck cf ->
    List.NoDup ks -> (forall k, In k ks <-> settles_account e cx w ck k c) ->
    (forall k d, stake_of e w ck k = Some d -> ok w cf d) ->
    books e ck ok w0 w' (a + waiting w ck cf) (p + sum_over (claim_of e w ck cf) ks)
      (t + cfg_effective cf) (m + N.of_nat (length ks)).

(** A history in which no keeper payment goes to the config [ck]. *)
Inductive keeperless (e : env) (ck : pubkey) (w0 : world) : world -> Prop :=
| keeperless_start : keeperless e ck w0 w0
| keeperless_on w ev w' : keeperless e ck w0 w -> step e w ev w' ->
    (forall cx c, ev = Do cx c -> keeper_in c <> Some ck) -> keeperless e ck w0 w'.
