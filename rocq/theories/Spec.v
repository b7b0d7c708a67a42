(** Vocabulary of the property statements.  Written against accounts and their
    contents only, without the handlers. *)
From Verif Require Import Base Types Instr Processor Runtime History.

(** Sum of a quantity over all accounts of the world. *)
Definition wsum (f : pubkey -> account -> N) (w : world) : N := map_fold (fun k a s => f k a + s) 0 w.

(** [ck] is an initialised config with contents [c]; a validator stake; a SOL
    staker stake. *)
Definition config_at (e : env) (w : world) (ck : pubkey) (c : config) : Prop :=
  own (get w ck) = e_prog e /\ dat (get w ck) = DConfig c.
Definition val_at (e : env) (w : world) (k : pubkey) (v : vstake) : Prop :=
  own (get w k) = e_prog e /\ dat (get w k) = DVal v.
Definition sol_at (e : env) (w : world) (k : pubkey) (s : sstake) : Prop :=
  own (get w k) = e_prog e /\ dat (get w k) = DSol s.

(** The delegation held at address [k] if it is a stake account of config [ck]:
    owned by the program and at the address derived from its vote account
    (native stake account) and [ck]. *)
Definition stake_in (e : env) (ck k : pubkey) (a : account) : option delegation :=
  if own a =? e_prog e then
    match dat a with
    | DVal v => if k =? e_val e (vote (v_del v)) ck then Some (v_del v) else None
    | DSol s => if k =? e_sol e (s_native s) ck then Some (s_del s) else None
    | _ => None
    end
  else None.
Definition stake_of (e : env) (w : world) (ck k : pubkey) : option delegation :=
  stake_in e ck k (get w k).

(** Sum of a field over the stake accounts of a config. *)
Definition sum_of (e : env) (w : world) (ck : pubkey) (g : delegation -> N) : N :=
  wsum (fun k a => match stake_in e ck k a with Some d => g d | None => 0 end) w.

(** SOL recorded by the SOL stakers of config [ck] delegated to vote account [v]. *)
Definition lamports_in (e : env) (ck v k : pubkey) (a : account) : N :=
  if own a =? e_prog e then
    match dat a with
    | DSol s => if (k =? e_sol e (s_native s) ck) && (vote (s_del s) =? v) then s_lamports s else 0
    | _ => 0
    end
  else 0.
Definition staker_lamports (e : env) (w : world) (ck v : pubkey) : N := wsum (lamports_in e ck v) w.

(** 1.3 tokens per lamport, rounded down. *)
Definition cap (lamports : N) : N := 13 * lamports / 10.

(** What the vault authority of a config has deposited in the rewards pool, and
    the holder accumulator recorded for it. *)
Definition deposit (e : env) (w : world) (ck : pubkey) : N :=
  match dat (get w (e_holder e (e_vault e ck))) with DHolder h => h_deposited h | _ => 0 end.
Definition holder_acc (e : env) (w : world) (ck : pubkey) : N :=
  match dat (get w (e_holder e (e_vault e ck))) with DHolder h => h_last h | _ => 0 end.

(** Tokens held by a token account ([0] if it is none). *)
Definition tokens (e : env) (w : world) (k : pubkey) : N :=
  if own (get w k) =? e_token e then
    match dat (get w k) with DToken t => t_amount t | _ => 0 end
  else 0.
(** Supply of a mint. *)
Definition supply (w : world) (k : pubkey) : N :=
  match dat (get w k) with DMint m => m_supply m | _ => 0 end.

(** [r] is the floor of [num/den] if that is below [bound], the overflow error otherwise. *)
Definition floor_or_overflow (num den bound : N) (r : result N) : Prop :=
  (num / den < bound -> r = Ok (num / den)) /\ (bound <= num / den -> r = Err ArithmeticOverflow).

(** Tokens an instruction slashes from config [ck] when run in [w]. *)
Definition slashed_by (e : env) (ck : pubkey) (w : world) (c : call) : N :=
  match c with
  | CSlashValidatorStake a n | CSlashSolStakerStake a n =>
      if sl_config a =? ck then
        match stake_of e w ck (sl_stake a) with Some d => N.min n (staked d) | None => 0 end
      else 0
  | _ => 0
  end.
Definition slashed_in (e : env) (ck : pubkey) (w : world) (ev : event) : N :=
  match ev with Do _ c => slashed_by e ck w c | Other => 0 end.
(** Tokens an instruction unstakes from, or stakes into, config [ck]. *)
Definition unstaked_in (ck : pubkey) (w : world) (ev : event) : N :=
  match ev with Do _ (CUnstakeTokens a n) => if un_config a =? ck then n else 0 | _ => 0 end.
Definition staked_in (ck : pubkey) (w : world) (ev : event) : N :=
  match ev with
  | Do _ (CValidatorStakeTokens a n) | Do _ (CSolStakerStakeTokens a n) => if st_config a =? ck then n else 0
  | _ => 0
  end.
(** The stake account at [k] counts for exactly its stake capped by 1.3 times its SOL. *)
Definition capped_exactly (e : env) (w : world) (k : pubkey) : Prop :=
  (forall v, val_at e w k v ->
     effective (v_del v) = N.min (staked (v_del v)) (cap (N.max (v_total v) (v_min v)))) /\
  (forall s, sol_at e w k s -> effective (s_del s) = N.min (staked (s_del s)) (cap (s_lamports s))).
