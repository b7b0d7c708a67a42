(** Vocabulary: what a stake account gets out of the holder rewards of its config's
    vault over a stretch of history, and what it should get. *)
From Coq Require Import QArith.
From Verif Require Import Base Types Instr Processor Runtime History Spec SpecReward SpecShare.

Local Open Scope N_scope.
(** By how much the vault's holder accumulator moves. *)
Definition advance (e : env) (ck : pubkey) (w w' : world) : N := since (holder_acc e w' ck) (holder_acc e w ck).
(** What that is worth to [k], as a fraction of lamports: the accumulator counts
    lamports per [10^18] tokens, and [k] is backed by the tokens staked on it. *)
Definition worth (e : env) (ck : pubkey) (w w' : world) (d : delegation) : Q :=
  (q (advance e ck w w') * q (staked d) / q (10 ^ 18))%Q.
(** What [k] is owed, not rounded. *)
Definition holder_credit (e : env) (ck : pubkey) (w : world) (d : delegation) : Q :=
  (q (since (holder_acc e w ck) (last_holder d)) * q (staked d) / q (10 ^ 18))%Q.

(** A stretch of history with, for the stake account [k] of [ck]: the worth [f] of all
    advances, counted with the tokens staked once the step is done; the lamports [p]
    it was paid; and the number [n] of payments.  A keeper payment does not go to the
    config itself.  [ok] holds of every step that does not pay [k]. *)
Inductive holder_ledger (e : env) (ck k : pubkey) (ok : world -> world -> delegation -> Prop) (w0 : world) :
  world -> Q -> N -> N -> Prop :=
| holder_start : holder_ledger e ck k ok w0 w0 0%Q 0%N 0%N
| holder_other w f p n ev w' d : holder_ledger e ck k ok w0 w f p n -> step e w ev w' ->
    (forall cx c, ev = Do cx c -> distributes ck c -> keeper_in c <> Some ck /\ ~ settles_account e cx w ck k c) ->
    stake_of e w' ck k = Some d -> ok w w' d ->
    holder_ledger e ck k ok w0 w' (f + worth e ck w w' d)%Q p n
| holder_settle w f p n cx c w' d d' : holder_ledger e ck k ok w0 w f p n -> step e w (Do cx c) w' ->
    keeper_in c <> Some ck -> settles_account e cx w ck k c ->
    stake_of e w ck k = Some d -> stake_of e w' ck k = Some d' ->
    holder_ledger e ck k ok w0 w' (f + worth e ck w w' d')%Q (p + holder_claim e w ck d)%N (n + 1)%N.

(** Less than the accumulator's range has accrued since the account was last paid. *)
Definition holder_in_range (e : env) (ck : pubkey) (w w' : world) (d : delegation) : Prop :=
  (since (holder_acc e w ck) (last_holder d) + advance e ck w w' < 2 ^ 128)%N.
