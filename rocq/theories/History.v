(** Histories: interleavings of successful instructions with anything else that
    happens on the chain. *)
From Verif Require Import Base Types Layout Instr Math External Processor Runtime.

(** The program's own derived addresses. *)
Definition pda (e : env) (k : pubkey) : Prop :=
  (exists v c, k = e_val e v c) \/ (exists n c, k = e_sol e n c) \/
  (exists c, k = e_vault e c) \/ (exists a c, k = e_override e a c).

(** What is assumed about the deployment: distinct program ids; derived
    addresses of different kinds or different seeds differ (collision freeness of
    the hash), and [find_vault_pda]'s bump recreates the same address. *)
Record env_ok (e : env) : Prop := {
  ok_ids : NoDup [0; e_prog e; e_token e; e_rewards e; e_votep e; e_view e];
  ok_bump : forall c, e_create_vault e c (e_bump e c) = Some (e_vault e c);
  ok_val_inj : forall v c v' c', e_val e v c = e_val e v' c' -> v = v' /\ c = c';
  ok_sol_inj : forall n c n' c', e_sol e n c = e_sol e n' c' -> n = n' /\ c = c';
  ok_vault_inj : forall c c', e_vault e c = e_vault e c' -> c = c';
  ok_holder_inj : forall o o', e_holder e o = e_holder e o' -> o = o';
  ok_val_sol : forall v c n c', e_val e v c <> e_sol e n c';
  ok_val_vault : forall v c c', e_val e v c <> e_vault e c';
  ok_val_over : forall v c a c', e_val e v c <> e_override e a c';
  ok_sol_vault : forall n c c', e_sol e n c <> e_vault e c';
  ok_sol_over : forall n c a c', e_sol e n c <> e_override e a c';
  ok_vault_over : forall c a c', e_vault e c <> e_override e a c';
  ok_holder_pda : forall o, ~ pda e (e_holder e o);
  ok_pool_pda : forall m, ~ pda e (e_pool e m);
  ok_pool_holder : forall m o, e_pool e m <> e_holder e o;
  ok_bump_range : forall c, e_bump e c < 256;
}.

(** Integer fields are in range (true of any account by its byte layout). *)
Definition wf_del (d : delegation) : Prop :=
  staked d < U64 /\ effective d < U64 /\ cooldown d < U64 /\
  last_holder d < U128 /\ last_stake d < U128.
Definition wf_data (d : adata) : Prop :=
  match d with
  | DConfig c => cfg_cooldown c < U64 /\ cfg_effective c < U64 /\ cfg_sync c < U64 /\
                 cfg_last c < U64 /\ cfg_acc c < U128 /\ cfg_bps c < U16 /\ cfg_bump c < 256
  | DVal v => wf_del (v_del v) /\ v_total v < U64 /\ v_min v < U64
  | DSol s => wf_del (s_del s) /\ s_lamports s < U64
  | DToken t => t_amount t < U64
  | DMint m => m_supply m < U64
  | DHolder h => h_last h < U128 /\ h_deposited h < U64
  | _ => True
  end.
Definition wf_account (a : account) : Prop := lam a < U64 /\ wf_data (dat a).
Definition wf_world (w : world) : Prop := forall k, wf_account (get w k).

Definition zeroed (d : adata) : Prop := exists n, d = DRaw (repeat 0 n).

(** The instruction's integers come from bytes; a program's derived address
    never signs a transaction; the clock and the view answer are u64, and the view
    program reports no effective stake for an undelegated account. *)
Definition wf_ctx (e : env) (cx : ctx) : Prop :=
  (forall k, signed cx k = true -> ~ pda e k) /\ c_now cx < U64 /\
  (forall v, c_view cx = Some v -> vw_effective v < U64 /\ (vw_vote v = 0 -> vw_effective v = 0)).
Definition wf_call (c : call) : Prop :=
  match c with
  | CInitializeConfig _ _ _ cd b sy _ => cd < U64 /\ b < U16 /\ sy < U64
  | CUpdateConfig _ (CooldownTimeSeconds x) => x < U64
  | CUpdateConfig _ (MaxDeactivationBasisPoints x) => x < U16
  | CUpdateConfig _ (SyncRewardsLamports x) => x < U64
  | CValidatorStakeTokens _ n | CSlashValidatorStake _ n | CSolStakerStakeTokens _ n
  | CUnstakeTokens _ n | CSlashSolStakerStake _ n | CSolStakerMoveTokens _ n
  | CValidatorOverride _ n => n < U64
  | _ => True
  end.

(** Anything that is not an instruction of this program: transfers, other
    programs, account creation.  Only the runtime's ownership rules, the token
    program's authority rules and the rewards program's owner-signature rule
    restrict it. *)
Record rely (e : env) (w w' : world) : Prop := {
  (* only the program changes the data of its accounts or takes their lamports;
     an account without lamports is removed at the end of the transaction *)
  rely_owned : forall k, own (get w k) = e_prog e ->
    (own (get w' k) = e_prog e /\ dat (get w' k) = dat (get w k) /\ lam (get w k) <= lam (get w' k)) \/
    (lam (get w k) = 0 /\ zeroed (dat (get w k)) /\
     (own (get w' k) = e_prog e -> zeroed (dat (get w' k))) /\
     (pda e k -> own (get w' k) = 0 /\ dat (get w' k) = DRaw []));
  (* accounts given to the program arrive zeroed *)
  rely_new : forall k, own (get w k) <> e_prog e -> own (get w' k) = e_prog e ->
    zeroed (dat (get w' k));
  (* nobody else can sign for the program's derived addresses *)
  rely_pda : forall k, pda e k -> own (get w k) <> e_prog e ->
    own (get w' k) = own (get w k) /\ dat (get w' k) = dat (get w k) /\ lam (get w k) <= lam (get w' k);
  (* token accounts of a vault authority without delegate or close authority *)
  rely_token : forall k t c, own (get w k) = e_token e -> dat (get w k) = DToken t ->
    t_owner t = e_vault e c -> t_delegate t = None -> t_close t = None ->
    own (get w' k) = e_token e /\
    exists t', dat (get w' k) = DToken t' /\ t_owner t' = t_owner t /\ t_mint t' = t_mint t /\
               t_delegate t' = None /\ t_close t' = None /\ t_amount t <= t_amount t';
  (* the holder account of a vault authority: created empty, changed only with
     that authority's signature *)
  rely_holder : forall c,
    (own (get w' (e_holder e (e_vault e c))) = own (get w (e_holder e (e_vault e c))) /\
     dat (get w' (e_holder e (e_vault e c))) = dat (get w (e_holder e (e_vault e c)))) \/
    ((forall h, dat (get w (e_holder e (e_vault e c))) <> DHolder h) /\
     (forall h, dat (get w' (e_holder e (e_vault e c))) = DHolder h -> h_deposited h = 0));
  rely_wf : wf_world w';
}.

(** A history starts before the program has any initialised account. *)
Record genesis (e : env) (w : world) : Prop := {
  gen_owned : forall k, own (get w k) = e_prog e -> zeroed (dat (get w k)) /\ ~ pda e k;
  gen_pda : forall k, pda e k -> own (get w k) = 0 /\ dat (get w k) = DRaw [];
  gen_holder : forall c h, dat (get w (e_holder e (e_vault e c))) = DHolder h -> h_deposited h = 0;
  gen_wf : wf_world w;
}.

(** One event of a history: an instruction, or anything else. *)
Inductive event :=
| Do (cx : ctx) (c : call)
| Other.

Inductive step (e : env) : world -> event -> world -> Prop :=
| step_do w cx c w' :
    wf_ctx e cx -> wf_call c -> run e cx c w = Ok w' -> step e w (Do cx c) w'
| step_other w w' : rely e w w' -> step e w Other w'.

Inductive steps (e : env) : world -> list event -> world -> Prop :=
| steps_nil w : steps e w [] w
| steps_snoc w tr w' ev w'' : steps e w tr w' -> step e w' ev w'' -> steps e w (tr ++ [ev]) w''.

Definition reachable (e : env) (w : world) : Prop :=
  exists w0 tr, genesis e w0 /\ steps e w0 tr w.

(** A stretch of history from one world to another, with the sum of what [f]
    assigns to its events. *)
Inductive tally (e : env) (f : world -> event -> N) : world -> world -> N -> Prop :=
| tally_nil w : tally e f w w 0
| tally_snoc w w' n ev w'' : tally e f w w' n -> step e w' ev w'' -> tally e f w w'' (n + f w' ev).
