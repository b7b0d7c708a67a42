(** Vocabulary: the balance sheet of a config and its vault over a history. *)
From Verif Require Import Base Types Instr Processor Runtime History Spec SpecReward SpecShare SpecHolder SpecSolvency SpecDust SpecStray.
Local Open Scope N_scope.

(** Lamports at the config that it has not taken note of, and those of them it will not
    share out because no stake counts. *)
Definition unseen (w : world) (ck : pubkey) (c : config) : N := lam (get w ck) - cfg_last c.
Definition unowned (w : world) (ck : pubkey) (c : config) : N := if cfg_effective c =? 0 then unseen w ck c else 0.
(** Nobody is paid into the config or its vault. *)
Definition payees_apart (e : env) (ck : pubkey) (w : world) : Prop :=
  forall k d, stake_of e w ck k = Some d -> authority d <> ck /\ authority d <> e_vault e ck.
Definition keeper_apart (e : env) (ck : pubkey) (c : call) : Prop :=
  keeper_in c <> Some ck /\ keeper_in c <> Some (e_vault e ck).

(** Lamports sent to the vault from outside; lamports shared out by the config; lamports
    that reached it while no stake counted; staking rewards paid; effective totals shared
    over; payments; and the holder rewards ([SpecStray]). *)
Record sheet := Sheet {
  gifts : N; shared : N; unshared : N; rewards : N; spread : N; times : N; holders : line }.
Definition blank_sheet : sheet := Sheet 0 0 0 0 0 0 blank_line.

Inductive balance (e : env) (ck : pubkey) (oks : world -> config -> delegation -> Prop)
    (okh : world -> world -> delegation -> Prop) (w0 : world) : world -> sheet -> Prop :=
| balance_start : balance e ck oks okh w0 w0 blank_sheet
| balance_other w s ev w' : balance e ck oks okh w0 w s -> step e w ev w' ->
    (forall cx c, ev = Do cx c -> ~ distributes ck c /\ keeper_in c <> Some ck) ->
    (forall k d, stake_of e w' ck k = Some d -> okh w w' d) ->
    balance e ck oks okh w0 w'
      (Sheet (gifts s + (lam (get w' (e_vault e ck)) - lam (get w (e_vault e ck)))) (shared s) (unshared s) (rewards s)
             (spread s) (times s) (add_line (holders s) (line_of e ck w ev w' [])))
| balance_distribute w s cx c w' cf ks : balance e ck oks okh w0 w s -> step e w (Do cx c) w' ->
    distributes ck c -> keeper_apart e ck c -> payees_apart e ck w -> config_at e w ck cf ->
    List.NoDup ks -> (forall k, In k ks <-> settles_account e cx w ck k c) ->
    (forall k d, stake_of e w ck k = Some d -> oks w cf d) ->
    (forall k d, stake_of e w' ck k = Some d -> okh w w' d) ->
    balance e ck oks okh w0 w'
      (Sheet (gifts s) (shared s + waiting w ck cf) (unshared s + unowned w ck cf)
             (rewards s + sum_over (claim_of e w ck cf) ks) (spread s + cfg_effective cf)
             (times s + N.of_nat (length ks)) (add_line (holders s) (line_of e ck w (Do cx c) w' ks))).

(** A history in which nobody is paid into the config or its vault. *)
Inductive apart (e : env) (ck : pubkey) (w0 : world) : world -> Prop :=
| apart_start : apart e ck w0 w0
| apart_on w ev w' : apart e ck w0 w -> step e w ev w' -> payees_apart e ck w ->
    (forall cx c, ev = Do cx c -> keeper_apart e ck c) -> apart e ck w0 w'.
