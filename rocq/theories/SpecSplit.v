(** Vocabulary: one position held in several SOL stake accounts. *)
From Verif Require Import Base Types Layout Processor Runtime History Spec SpecReward.

(** A field of the SOL stake account at [k]. *)
Definition sol_field (g : sstake -> N) (w : world) (k : pubkey) : N :=
  match dat (get w k) with DSol s => g s | _ => 0 end.
Definition held_tokens (w : world) : pubkey -> N := sol_field (fun s => staked (s_del s)) w.
Definition held_effective (w : world) : pubkey -> N := sol_field (fun s => effective (s_del s)) w.
Definition held_lamports (w : world) : pubkey -> N := sol_field s_lamports w.

(** [ks] are SOL stake accounts of [ck] that were last paid at the same time. *)
Definition pieces (e : env) (w : world) (ck : pubkey) (ms mh : N) (ks : list pubkey) : Prop :=
  forall k, In k ks -> exists s, sol_at e w k s /\ k = e_sol e (s_native s) ck /\
    last_stake (s_del s) = ms /\ last_holder (s_del s) = mh.

(** What a single stake with [T] tokens and [L] lamports of native stake, last
    paid at the same time, would count for and would be paid. *)
Definition single_effective (T L : N) : N := N.min T (13 * L / 10).
Definition single_pay (e : env) (w : world) (ck : pubkey) (ms mh T L : N) : N :=
  since (acc_at w ck) ms * single_effective T L / 10 ^ 18 + since (holder_acc e w ck) mh * T / 10 ^ 18.
