(** When the governance and initialisation instructions go through: in terms of
    account contents and signatures only. *)
From Verif Require Import Base Types Layout Instr Processor Runtime History Spec.

(** The DUNA document of [signer] with the given hash is signed. *)
Definition document_signed (e : env) (w : world) (doc signer hash : N) : Prop :=
  doc = e_duna e signer hash /\ head (raw_bytes e (dat (get w doc))) = Some 1.
(** An address nothing was created at, funded for [len] bytes. *)
Definition unused (e : env) (w : world) (k len : N) : Prop :=
  own (get w k) = 0 /\ dat (get w k) = DRaw [] /\ e_rent e len <= lam (get w k).

(** [UpdateConfig] and [SetAuthority]: the current authority is set and signs. *)
Record can_update (e : env) (cx : ctx) (w : world) (a : update_config_accts) (f : config_field) (c : config) : Prop := {
  cu_config : config_at e w (uc_config a) c;
  cu_authority : uc_authority a = cfg_authority c /\ uc_authority a <> 0 /\ signed cx (uc_authority a) = true;
  cu_field : forall x, f = MaxDeactivationBasisPoints x -> x <= 10000;
}.
Record can_set_authority (e : env) (cx : ctx) (w : world) (a : set_auth_accts) (t : authority_type) (c : config) : Prop := {
  ca_config : config_at e w (sa_account a) c;
  ca_authority : sa_authority a = (match t with AuthConfig => cfg_authority c | AuthSlash => cfg_slash c end) /\
    sa_authority a <> 0 /\ signed cx (sa_authority a) = true;
}.
(** [ValidatorSyncAuthority]: a validator stake of the config and its vote account. *)
Record can_sync_authority (e : env) (w : world) (a : sync_auth_accts) : Prop := {
  cy_config : exists c, config_at e w (sy_config a) c;
  cy_stake : sy_stake a = e_val e (sy_vote a) (sy_config a) /\ exists v, val_at e w (sy_stake a) v;
  cy_vote : own (get w (sy_vote a)) = e_votep e /\ exists wd, dat (get w (sy_vote a)) = DVote wd;
}.
(** [InitializeConfig]: a blank, funded config account; an unused or already
    assigned vault address; an empty vault that only the vault address controls. *)
Record can_init_config (e : env) (w : world) (a : init_config_accts) (bps : N) (t : token) : Prop := {
  ci_config : own (get w (ic_config a)) = e_prog e /\ e_rent e 192 <= lam (get w (ic_config a)) /\
    exists b, dat (get w (ic_config a)) = DRaw b /\ length b = 192%nat /\ firstn 8 b = [0;0;0;0;0;0;0;0];
  ci_vault_pda : ic_vault_pda a = e_vault e (ic_config a) /\ dat (get w (ic_vault_pda a)) = DRaw [] /\
    (own (get w (ic_vault_pda a)) = 0 \/ own (get w (ic_vault_pda a)) = e_prog e);
  ci_vhr : ic_vhr a = e_holder e (ic_vault_pda a);
  ci_mint : exists m, dat (get w (ic_mint a)) = DMint m;
  ci_vault : dat (get w (ic_vault a)) = DToken t /\ t_owner t = ic_vault_pda a /\ t_mint t = ic_mint a /\
    t_amount t = 0 /\ t_close t = None /\ t_delegate t = None;
  ci_bps : bps <= 10000;
}.
(** [InitializeValidatorStake]: anybody can create a validator's stake account at
    its derived address once the withdrawer has signed the document. *)
Record can_init_val (e : env) (w : world) (a : init_val_accts) (c : config) (wd : pubkey) : Prop := {
  cv_config : config_at e w (iv_config a) c;
  cv_vote : own (get w (iv_vote a)) = e_votep e /\ dat (get w (iv_vote a)) = DVote wd;
  cv_document : document_signed e w (iv_duna a) wd (cfg_duna c);
  cv_stake : iv_stake a = e_val e (iv_vote a) (iv_config a) /\ unused e w (iv_stake a) 144;
}.
(** [InitializeSolStakerStake]: the stake view reports a delegated stake with a
    withdrawer, whose document is signed and whose validator has a stake account. *)
Record can_init_sol (e : env) (cx : ctx) (w : world) (a : init_sol_accts) (c : config) (vw : view) (v : vstake) : Prop := {
  cs_config : config_at e w (is_config a) c;
  cs_view : is_view a = e_view e /\ c_view cx = Some vw /\ vw_vote vw <> 0 /\ vw_withdrawer vw <> 0;
  cs_document : document_signed e w (is_duna a) (vw_withdrawer vw) (cfg_duna c);
  cs_val : is_val a = e_val e (vw_vote vw) (is_config a) /\ val_at e w (is_val a) v /\
    v_total v + vw_effective vw < 2 ^ 64;
  cs_stake : is_stake a = e_sol e (is_native a) (is_config a) /\ unused e w (is_stake a) 168;
  cs_override : is_override a = e_override e (vw_withdrawer vw) (is_config a) /\
    (dat (get w (is_override a)) = DRaw [] \/ 32 <= data_len (dat (get w (is_override a))));
}.
