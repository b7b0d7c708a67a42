(** What each internal step does, read off as pointwise effects. *)
From Verif Require Import Base Types Layout Instr Math External Processor Runtime History Spec WorldLemmas.

Lemma unpack_config_ok d c : unpack_config d = Ok c -> d = DConfig c.
Proof. destruct d; simpl; try (destruct (_ =? _)); congruence. Qed.
Lemma unpack_val_ok d v : unpack_val d = Ok v -> d = DVal v.
Proof. destruct d; simpl; try (destruct (_ =? _)); congruence. Qed.
Lemma unpack_sol_ok d v : unpack_sol d = Ok v -> d = DSol v.
Proof. destruct d; simpl; try (destruct (_ =? _)); congruence. Qed.
Lemma unpack_token_ok d v : unpack_token d = Ok v -> d = DToken v.
Proof. destruct d; simpl; try (destruct (_ =? _)); congruence. Qed.
Lemma unpack_mint_ok d v : unpack_mint d = Ok v -> d = DMint v.
Proof. destruct d; simpl; try (destruct (_ =? _)); congruence. Qed.
Lemma unpack_holder_ok d v : unpack_holder d = Ok v -> d = DHolder v.
Proof. destruct d; simpl; congruence. Qed.
Lemma vote_withdrawer_ok d v : vote_withdrawer d = Ok v -> d = DVote v.
Proof. destruct d; simpl; congruence. Qed.

Lemma load_config_ok e w k c : load_config e w k = Ok c ->
  own (get w k) = e_prog e /\ dat (get w k) = DConfig c.
Proof. intros H. unfold load_config in H. stepg H G. apply unpack_config_ok in H. auto. Qed.
Lemma load_val_ok e w k ck v : load_val e w k ck = Ok v ->
  own (get w k) = e_prog e /\ dat (get w k) = DVal v /\ k = e_val e (vote (v_del v)) ck.
Proof.
  intros H. unfold load_val in H. stepg H G. stepn H x E. stepg H G1.
  apply unpack_val_ok in E. injection H as <-. auto.
Qed.
Lemma load_sol_ok e w k ck s : load_sol e w k ck = Ok s ->
  own (get w k) = e_prog e /\ dat (get w k) = DSol s /\ k = e_sol e (s_native s) ck.
Proof.
  intros H. unfold load_sol in H. stepg H G. stepn H x E. stepg H G1.
  apply unpack_sol_ok in E. injection H as <-. auto.
Qed.
Lemma del_of_ok d x : del_of d = Ok x ->
  (exists v, d = DVal v /\ v_del v = x) \/ (exists s, d = DSol s /\ s_del s = x).
Proof. destruct d; simpl; intros [= <-]; eauto. Qed.
Lemma del_of_upd d x : is_Some (match del_of d with Ok y => Some y | _ => None end) ->
  del_of (upd_del d x) = Ok x.
Proof. destruct d; simpl; intros [y Y]; try discriminate; auto. Qed.
Lemma del_of_upd' d x y : del_of d = Ok y -> del_of (upd_del d x) = Ok x.
Proof. intros H. apply del_of_upd. rewrite H. eauto. Qed.
Lemma upd_upd d x y : upd_del (upd_del d x) y = upd_del d y.
Proof. destruct d; auto. Qed.
Lemma upd_del_same d x : del_of d = Ok x -> upd_del d x = d.
Proof. destruct d; simpl; intros [= <-]; [destruct v|destruct s]; auto. Qed.
Lemma del_of_config d x c : del_of d = Ok x -> d = DConfig c -> False.
Proof. intros H ->. discriminate. Qed.

(** The lamport limits [load_any] reads: a stake account's recorded SOL. *)
Definition limits (d : adata) : N :=
  match d with
  | DVal v => N.max (v_total v) (v_min v)
  | DSol s => N.max (s_lamports s) 0
  | _ => 0
  end.
Lemma limits_upd d x : limits (upd_del d x) = limits d.
Proof. destruct d; auto. Qed.

(** ** Configuration synchronisation *)
Inductive synced_cfg (w : world) (ck : pubkey) (w' : world) : Prop :=
| SyncedCfg c rpt
    (Hc : dat (get w ck) = DConfig c)
    (Hl : cfg_last c <= lam (get w ck))
    (Hr : calculate_stake_rewards_per_token (lam (get w ck) - cfg_last c) (cfg_effective c) = Ok rpt)
    (Hw : w' = setd w ck (DConfig (set_cfg_last (set_cfg_acc c (wadd128 (cfg_acc c) rpt)) (lam (get w ck))))).
Lemma sync_config_lamports_ok w ck w' : sync_config_lamports w ck = Ok w' -> synced_cfg w ck w'.
Proof.
  intros H. unfold sync_config_lamports in H. stepn H c E. stepn H x E1. stepn H y E2.
  apply unpack_config_ok in E. apply csub_ok in E1 as [E1 ->]. injection H as <-.
  econstructor; eauto.
Qed.

(** ** Harvest *)
(** Lamports after paying: keeper first, then the config and the authority are
    overwritten with values computed earlier. *)
Definition keeper_part (keeper : option pubkey) (total sync : N) : N :=
  match keeper with Some _ => N.min total sync | None => 0 end.
Definition keeper_lam (w : world) (keeper : option pubkey) (kr k : N) : N :=
  match keeper with
  | Some x => if x =? k then lam (get w k) + kr else lam (get w k)
  | None => lam (get w k)
  end.
Definition paid_lam (w : world) (ck auth : pubkey) (keeper : option pubkey) (total sync k : N) : N :=
  let kr := keeper_part keeper total sync in
  if auth =? k then keeper_lam w keeper kr auth + (total - kr)
  else if ck =? k then lam (get w ck) - total
  else keeper_lam w keeper kr k.

Inductive harvested (e : env) (w : world) (ck vhr auth va sk : pubkey) (keeper : option pubkey)
    (w' : world) : Prop :=
| Harvested c d h rpt sr hr
    (Hc : dat (get w ck) = DConfig c)
    (Hd : del_of (dat (get w sk)) = Ok d)
    (Ha : auth = authority d)
    (Hl : cfg_last c <= lam (get w ck))
    (Hr : calculate_stake_rewards_per_token (lam (get w ck) - cfg_last c) (cfg_effective c) = Ok rpt)
    (Hsr : calculate_eligible_rewards (wadd128 (cfg_acc c) rpt) (last_stake d) (effective d) = Ok sr)
    (Hv : vhr = e_holder e va)
    (Hh : dat (get w vhr) = DHolder h)
    (Hhr : calculate_eligible_rewards (h_last h) (last_holder d) (staked d) = Ok hr)
    (Hlam : sr + hr <= lam (get w ck))
    (Hrent : e_rent e CONFIG_LEN <= lam (get w ck) - (sr + hr))
    (Hkb : keeper_lam w keeper (keeper_part keeper (sr + hr) (cfg_sync c)) auth
           + (sr + hr - keeper_part keeper (sr + hr) (cfg_sync c)) < U64)
    (Hkk : match keeper with
           | Some k => lam (get w k) + keeper_part keeper (sr + hr) (cfg_sync c) < U64
           | None => True end)
    (Ho : forall k, own (get w' k) = own (get w k))
    (Hdat : forall k, dat (get w' k) =
       if ck =? k then DConfig (set_cfg_last (set_cfg_acc c (wadd128 (cfg_acc c) rpt))
                                             (lam (get w ck) - (sr + hr)))
       else if sk =? k then upd_del (dat (get w sk)) (set_lasts d (h_last h) (wadd128 (cfg_acc c) rpt))
       else dat (get w k))
    (Hlams : forall k, lam (get w' k) = paid_lam w ck auth keeper (sr + hr) (cfg_sync c) k).

Lemma harvest_ok e w ck vhr auth va sk keeper w' :
  harvest e w ck vhr auth va sk keeper = Ok w' -> harvested e w ck vhr auth va sk keeper w'.
Proof.
  intros H. unfold harvest in H.
  stepn H d Ed. stepg H Ga. stepn H w1 E1. apply sync_config_lamports_ok in E1 as [c rpt Hc Hl Hr ->].
  stepn H c1 Ec. wsi Ec. rewrite N.eqb_refl in Ec. apply unpack_config_ok in Ec. injection Ec as <-.
  stepn H sr Esr. stepg H Gv. stepn H h Eh. apply unpack_holder_ok in Eh. wsi Eh.
  assert (ck <> vhr) as NV. { intros ->. rewrite N.eqb_refl in Eh. discriminate. }
  rewrite (proj2 (N.eqb_neq _ _) NV) in Eh.
  stepn H hr Ehr. stepn H tot Et. apply add64_ok in Et as [-> Ht].
  assert (ck <> sk) as NS. { intros ->. rewrite Hc in Ed. discriminate. }
  cbv zeta in H. stepn H cl Ecl. wsi Ecl. apply csub_ok in Ecl as [Lc ->].
  stepg H Grent. simpl cfg_sync in H. simpl in Esr.
  destruct keeper as [kp|].
  - stepn H p Ep. stepn Ep l El. wsi El. apply add64_ok in El as [-> Lk]. injection Ep as <-.
    stepn H dr Edr. apply csub_ok in Edr as [_ ->]. stepn H rc Erc. wsi Erc.
    apply add64_ok in Erc as [-> Lr]. injection H as <-.
    apply (Harvested e w ck vhr auth va sk (Some kp) _ c d h rpt sr hr); auto.
    + simpl in *. rewrite N.min_comm, N.min_comm in Lr. destruct (N.eqb_spec kp auth); subst; auto.
    + intros k. now ws.
    + intros k. simpl. ws. destruct (N.eqb_spec ck k); auto.
      destruct (N.eqb_spec sk k); subst; auto.
    + intros k. unfold paid_lam, keeper_part, keeper_lam. ws.
      destruct (N.eqb_spec auth k); [destruct (N.eqb_spec kp auth) as [->|]; auto|].
      destruct (N.eqb_spec ck k); auto. destruct (N.eqb_spec kp k) as [->|]; auto.
  - simpl in H. stepn H dr Edr. apply csub_ok in Edr as [_ ->]. stepn H rc Erc. wsi Erc.
    apply add64_ok in Erc as [-> Lr]. injection H as <-.
    apply (Harvested e w ck vhr auth va sk None _ c d h rpt sr hr); auto.
    + simpl. intros k. now ws.
    + intros k. simpl. ws. destruct (N.eqb_spec ck k); auto.
      destruct (N.eqb_spec sk k); subst; auto.
    + intros k. unfold paid_lam, keeper_part, keeper_lam. now ws.
Qed.

(** ** Effective amounts *)
Inductive resynced (w : world) (ck sk : pubkey) (lim : N) (w' : world) : Prop :=
| Resynced c d limit
    (Hc : dat (get w ck) = DConfig c)
    (Hd : del_of (dat (get w sk)) = Ok d)
    (Hm : calculate_maximum_stake lim = Ok limit)
    (He : effective d <= cfg_effective c)
    (Hb : cfg_effective c - effective d + N.min (staked d) limit < U64)
    (Ho : forall k, own (get w' k) = own (get w k))
    (Hdat : forall k, dat (get w' k) =
       if ck =? k then DConfig (set_cfg_effective c (cfg_effective c - effective d + N.min (staked d) limit))
       else if sk =? k then upd_del (dat (get w sk)) (set_effective d (N.min (staked d) limit))
       else dat (get w k))
    (Hlams : forall k, lam (get w' k) = lam (get w k)).

Lemma sync_effective_ok w ck sk l lmin w' :
  sync_effective w ck sk l lmin = Ok w' -> resynced w ck sk (N.max l lmin) w'.
Proof.
  intros H. unfold sync_effective in H. stepn H c Ec. apply unpack_config_ok in Ec.
  stepn H d Ed. stepn H limit El. stepn H x E1. apply csub_ok in E1 as [L1 ->].
  stepn H x E2. apply add64_ok in E2 as [-> L2]. injection H as <-.
  assert (ck <> sk) as NS. { intros ->. rewrite Ec in Ed. discriminate. }
  apply (Resynced w ck sk _ _ c d limit); auto.
  - intros k. now ws.
  - intros k. ws. destruct (N.eqb_spec ck k); subst.
    + destruct (N.eqb_spec sk k); subst; auto; try congruence.
    + destruct (N.eqb_spec sk k); subst; auto.
  - intros k. now ws.
Qed.

(** ** Called programs: they leave the program's accounts alone. *)
Record ext_frame (e : env) (w w' : world) (pool owner vhr : pubkey) : Prop := {
  ef_own : forall k, own (get w' k) = own (get w k);
  ef_dat : forall k, dat (get w' k) <> dat (get w k) ->
    own (get w k) = e_token e \/ (own (get w k) = e_rewards e /\ k = vhr);
  ef_lam : forall k, k <> pool -> k <> owner -> lam (get w' k) = lam (get w k);
}.

Lemma token_at_ok e w k t : token_at e w k = Ok t ->
  own (get w k) = e_token e /\ dat (get w k) = DToken t.
Proof.
  intros H. unfold token_at in H. stepg H G. destruct (dat (get w k)); try discriminate.
  injection H as <-. auto.
Qed.
Lemma mint_at_ok e w k t : mint_at e w k = Ok t ->
  own (get w k) = e_token e /\ dat (get w k) = DMint t.
Proof.
  intros H. unfold mint_at in H. stepg H G. destruct (dat (get w k)); try discriminate.
  injection H as <-. auto.
Qed.

(** Signature and balance condition of [token_authorise]. *)
Lemma token_authorise_ok sig t auth amount t' : token_authorise sig t auth amount = Ok t' ->
  sig auth = true /\ (auth = t_owner t \/ t_delegate t = Some auth) /\
  t_owner t' = t_owner t /\ t_mint t' = t_mint t /\ t_amount t' = t_amount t /\
  t_close t' = t_close t /\ t_frozen t' = t_frozen t /\
  (t_delegate t = None -> t' = t).
Proof.
  unfold token_authorise. intros H.
  assert (forall (H : (let* _ := require ((auth =? t_owner t) && sig auth) TokenError in Ok t) = Ok t'),
    sig auth = true /\ auth = t_owner t /\ t' = t) as OWN.
  { intros H'. stepg H' G. apply andb_true_iff in G as [G1 G2]. b2p G1. injection H' as <-. auto. }
  destruct (t_delegate t) as [d|] eqn:D.
  - destruct (N.eqb_spec d auth).
    + subst. stepg H G. stepg H G1. injection H as <-. unfold spend_delegated. simpl.
      repeat split; auto. intros; discriminate.
    + apply OWN in H as (? & ? & ->). repeat split; auto.
  - apply OWN in H as (? & ? & ->). repeat split; auto.
Qed.

Inductive transferred (e : env) (sig : pubkey -> bool) (w : world) (src mnt dst auth amount : N)
    (w' : world) : Prop :=
| Transferred s d s'
    (Hs : dat (get w src) = DToken s) (Hso : own (get w src) = e_token e)
    (Hd : dat (get w dst) = DToken d) (Hdo : own (get w dst) = e_token e)
    (Hms : t_mint s = mnt) (Hmd : t_mint d = mnt)
    (Hmnt : exists m, dat (get w mnt) = DMint m)
    (Ham : amount <= t_amount s)
    (Hau : token_authorise sig s auth amount = Ok s')
    (Hov : src <> dst -> t_amount d + amount < U64)
    (Hl : forall k, lam (get w' k) = lam (get w k))
    (Ho : forall k, own (get w' k) = own (get w k))
    (Hdat : forall k, dat (get w' k) =
       if src =? dst then dat (get w k)
       else if src =? k then DToken (set_t_amount s' (t_amount s - amount))
       else if dst =? k then DToken (set_t_amount d (t_amount d + amount))
       else dat (get w k)).

Lemma token_transfer_ok e sig w src mnt dst auth amount w' :
  token_transfer e sig w src mnt dst auth amount = Ok w' ->
  transferred e sig w src mnt dst auth amount w'.
Proof.
  intros H. unfold token_transfer in H. stepn H s Es. stepn H d Ed.
  apply token_at_ok in Es as [Es1 Es2]. apply token_at_ok in Ed as [Ed1 Ed2].
  stepg H Gf. stepg H Ga. stepg H Gm. stepn H m Em. apply mint_at_ok in Em as [Em1 Em2].
  stepn H s' Eau. apply andb_true_iff in Gm as [G1 G2]. b2p G1. b2p G2.
  destruct (N.eqb_spec src dst) as [->|NE].
  - injection H as <-. apply (Transferred e sig w dst mnt dst auth amount w s d s'); auto.
    + congruence.
    + eauto.
    + congruence.
    + intros k. now rewrite N.eqb_refl.
  - stepg H Gov. injection H as <-.
    apply (Transferred e sig w src mnt dst auth amount _ s d s'); auto.
    + congruence.
    + eauto.
    + intros k. now ws.
    + intros k. now ws.
    + intros k. ws. rewrite (proj2 (N.eqb_neq _ _) NE).
      destruct (N.eqb_spec dst k); destruct (N.eqb_spec src k); subst; congruence.
Qed.

Lemma transferred_frame e sig w src mnt dst auth amount w' pool owner vhr :
  transferred e sig w src mnt dst auth amount w' -> ext_frame e w w' pool owner vhr.
Proof.
  intros [s d s' ? ? ? ? ? ? ? ? ? ? Hl Ho Hdat]. split; auto.
  intros k NE. rewrite Hdat in NE. left.
  destruct (src =? dst); [congruence|].
  destruct (N.eqb_spec src k); [congruence|]. destruct (N.eqb_spec dst k); congruence.
Qed.

Inductive burned (e : env) (sig : pubkey -> bool) (w : world) (src mnt auth amount : N)
    (w' : world) : Prop :=
| Burned s m s'
    (Hs : dat (get w src) = DToken s) (Hso : own (get w src) = e_token e)
    (Hm : dat (get w mnt) = DMint m) (Hmo : own (get w mnt) = e_token e)
    (Hms : t_mint s = mnt)
    (Ham : amount <= t_amount s) (Hsup : amount <= m_supply m)
    (Hau : token_authorise sig s auth amount = Ok s')
    (Hl : forall k, lam (get w' k) = lam (get w k))
    (Ho : forall k, own (get w' k) = own (get w k))
    (Hdat : forall k, dat (get w' k) =
       if src =? k then DToken (set_t_amount s' (t_amount s - amount))
       else if mnt =? k then DMint (Mnt (m_supply m - amount) (m_decimals m))
       else dat (get w k)).

Lemma token_burn_ok e sig w src mnt auth amount w' :
  token_burn e sig w src mnt auth amount = Ok w' -> burned e sig w src mnt auth amount w'.
Proof.
  intros H. unfold token_burn in H. stepn H s Es. stepn H m Em.
  apply token_at_ok in Es as [Es1 Es2]. apply mint_at_ok in Em as [Em1 Em2].
  stepg H Gf. stepg H Ga. stepg H Gm. stepn H s' Eau. stepg H Gs. injection H as <-.
  assert (src <> mnt) by (intros ->; congruence).
  apply (Burned e sig w src mnt auth amount _ s m s'); auto.
  - intros k. now ws.
  - intros k. now ws.
  - intros k. ws. destruct (N.eqb_spec mnt k); destruct (N.eqb_spec src k); subst; congruence.
Qed.
Lemma burned_frame e sig w src mnt auth amount w' pool owner vhr :
  burned e sig w src mnt auth amount w' -> ext_frame e w w' pool owner vhr.
Proof.
  intros [s m s' ? ? ? ? ? ? ? ? Hl Ho Hdat]. split; auto.
  intros k NE. rewrite Hdat in NE. left.
  destruct (N.eqb_spec src k); [congruence|]. destruct (N.eqb_spec mnt k); congruence.
Qed.

(** Rewards program *)
Definition pay_lam (w : world) (pool owner r k : N) : N :=
  if r =? 0 then lam (get w k)
  else if owner =? k then (if pool =? owner then lam (get w pool) - r else lam (get w owner)) + r
  else if pool =? k then lam (get w pool) - r
  else lam (get w k).
Lemma pool_pay_ok w pool owner r w' : pool_pay w pool owner r = Ok w' ->
  r <= lam (get w pool) /\
  (forall k, own (get w' k) = own (get w k)) /\ (forall k, dat (get w' k) = dat (get w k)) /\
  (forall k, lam (get w' k) = pay_lam w pool owner r k) /\
  (r <> 0 -> pay_lam w pool owner r owner < U64).
Proof.
  unfold pool_pay, pay_lam. intros H. destruct (N.eqb_spec r 0).
  - injection H as <-. repeat split; auto. lia. lia.
  - stepg H G. cbv zeta in H. stepg H G1. injection H as <-. wsi G1.
    repeat split; auto; intros; ws; auto.
    rewrite N.eqb_refl. auto.
Qed.

Lemma rewards_checked_ok e sig w pool ptok vhr mnt owner h :
  rewards_checked e sig w pool ptok vhr mnt owner = Ok h ->
  pool = e_pool e mnt /\ own (get w pool) = e_rewards e /\
  (exists p, dat (get w ptok) = DToken p /\ own (get w ptok) = e_token e /\ t_owner p = pool /\ t_mint p = mnt) /\
  sig owner = true /\ vhr = e_holder e owner /\ own (get w vhr) = e_rewards e /\
  dat (get w vhr) = DHolder h.
Proof.
  intros H. unfold rewards_checked in H. stepg H G. apply andb_true_iff in G as [G1 G2]. b2p G1. b2p G2.
  stepn H p Ep. apply token_at_ok in Ep as [Ep1 Ep2]. stepg H G3.
  apply andb_true_iff in G3 as [G3 G4]. b2p G3. b2p G4. stepg H G5. stepg H G6.
  apply andb_true_iff in G6 as [G6 G7]. b2p G6. b2p G7.
  destruct (dat (get w vhr)) eqn:D; try discriminate. injection H as <-.
  repeat split; auto. exists p. auto.
Qed.

Inductive rharvested (e : env) (sig : pubkey -> bool) (w : world) (pool ptok vhr mnt owner acc : N)
    (w' : world) : Prop :=
| RHarvested h r
    (Hp : pool = e_pool e mnt) (Hpo : own (get w pool) = e_rewards e)
    (Hsig : sig owner = true) (Hv : vhr = e_holder e owner)
    (Hvo : own (get w vhr) = e_rewards e) (Hh : dat (get w vhr) = DHolder h)
    (Hr : pool_reward acc (h_last h) (h_deposited h) = Ok r)
    (Hav : r <= pool_available e w pool)
    (Ho : forall k, own (get w' k) = own (get w k))
    (Hdat : forall k, dat (get w' k) =
       if vhr =? k then DHolder (Hold acc (h_deposited h)) else dat (get w k))
    (Hl : forall k, lam (get w' k) = pay_lam w pool owner r k)
    (Hlb : r <> 0 -> pay_lam w pool owner r owner < U64)
    (Hlp : r <= lam (get w pool)).
Lemma rewards_harvest_ok e sig w pool ptok vhr mnt owner acc w' :
  rewards_harvest e sig w pool ptok vhr mnt owner acc = Ok w' ->
  rharvested e sig w pool ptok vhr mnt owner acc w'.
Proof.
  intros H. unfold rewards_harvest in H. stepn H h Eh.
  apply rewards_checked_ok in Eh as (P1 & P2 & _ & P4 & P5 & P6 & P7).
  stepn H r Er. stepg H Gr. cbv zeta in H. apply pool_pay_ok in H as (Q0 & Q1 & Q2 & Q3 & Q4).
  apply (RHarvested e sig w pool ptok vhr mnt owner acc w' h r); auto.
  - intros k. rewrite Q1. now ws.
  - intros k. rewrite Q2. now ws.
  - intros k. rewrite Q3. unfold pay_lam. now ws.
  - intros R. specialize (Q4 R). unfold pay_lam in *. wsi Q4. exact Q4.
  - wsi Q0. exact Q0.
Qed.

(** Deposit and withdrawal as holder update, token transfer and payment. *)
Inductive deposited_ok (e : env) (sig : pubkey -> bool) (w : world)
    (pool ptok vhr tacc mnt owner amount acc : N) (w' : world) : Prop :=
| DepositedOk h r w1 w2
    (Hp : pool = e_pool e mnt) (Hpo : own (get w pool) = e_rewards e)
    (Hsig : sig owner = true) (Hv : vhr = e_holder e owner)
    (Hvo : own (get w vhr) = e_rewards e) (Hh : dat (get w vhr) = DHolder h)
    (Hpt : exists p, dat (get w ptok) = DToken p /\ own (get w ptok) = e_token e /\ t_owner p = pool /\ t_mint p = mnt)
    (Hta : exists t, dat (get w tacc) = DToken t /\ own (get w tacc) = e_token e /\ t_owner t = owner /\ t_mint t = mnt)
    (Hr : pool_reward acc (h_last h) (h_deposited h) = Ok r)
    (Hb : h_deposited h + amount < U64)
    (Hw1 : w1 = setd w vhr (DHolder (Hold acc (h_deposited h + amount))))
    (Hw2 : transferred e sig w1 tacc mnt ptok owner amount w2)
    (Ho : forall k, own (get w' k) = own (get w2 k))
    (Hdat : forall k, dat (get w' k) = dat (get w2 k))
    (Hl : forall k, lam (get w' k) = pay_lam w pool owner r k)
    (Hlb : r <> 0 -> pay_lam w pool owner r owner < U64)
    (Hlp : r <= lam (get w pool)) (Hav : r <= pool_available e w pool).
Lemma rewards_deposit_ok e sig w pool ptok vhr tacc mnt owner tp amount acc w' :
  rewards_deposit e sig w pool ptok vhr tacc mnt owner tp amount acc = Ok w' ->
  deposited_ok e sig w pool ptok vhr tacc mnt owner amount acc w'.
Proof.
  intros H. unfold rewards_deposit in H. stepn H h Eh.
  apply rewards_checked_ok in Eh as (P1 & P2 & P3 & P4 & P5 & P6 & P7).
  stepn H t Et. apply token_at_ok in Et as [Et1 Et2]. stepg H Gtk.
  apply andb_true_iff in Gtk as [G1 G2]. b2p G1. b2p G2. stepg H Gp. stepg H Ga.
  stepn H r Er. stepg H Gav. stepg H Gb. cbv zeta in H. stepn H w2 E2.
  apply token_transfer_ok in E2. apply pool_pay_ok in H as (Q0 & Q1 & Q2 & Q3 & Q4).
  eapply (DepositedOk e sig w pool ptok vhr tacc mnt owner amount acc w' h r); eauto.
  - intros k. rewrite Q3. unfold pay_lam. destruct E2 as [? ? ? ? ? ? ? ? ? ? ? ? ? Hl' ? ?].
    rewrite !Hl'. now ws.
  - intros R. specialize (Q4 R). unfold pay_lam in *. destruct E2 as [? ? ? ? ? ? ? ? ? ? ? ? ? Hl' ? ?].
    rewrite !Hl' in Q4. wsi Q4. exact Q4.
  - destruct E2 as [? ? ? ? ? ? ? ? ? ? ? ? ? Hl' ? ?]. rewrite Hl' in Q0. wsi Q0. exact Q0.
Qed.

Definition withdraw_amount (h : holder) (amount : N) : N :=
  if amount =? U64 - 1 then h_deposited h else amount.
Inductive withdrawn_ok (e : env) (sig : pubkey -> bool) (w : world)
    (pool ptok vhr tacc mnt owner amount acc : N) (w' : world) : Prop :=
| WithdrawnOk h r0 r last w1 w2
    (Hp : pool = e_pool e mnt) (Hpo : own (get w pool) = e_rewards e)
    (Hsig : sig owner = true) (Hv : vhr = e_holder e owner)
    (Hvo : own (get w vhr) = e_rewards e) (Hh : dat (get w vhr) = DHolder h)
    (Hpt : exists p, dat (get w ptok) = DToken p /\ own (get w ptok) = e_token e /\ t_owner p = pool /\ t_mint p = mnt)
    (Hta : exists t, dat (get w tacc) = DToken t /\ own (get w tacc) = e_token e /\ t_owner t = owner /\ t_mint t = mnt)
    (Ham : withdraw_amount h amount <= h_deposited h)
    (Hr0 : pool_reward acc (h_last h) (h_deposited h) = Ok r0)
    (Hcase : (r = r0 /\ last = acc) \/ (r = 0 /\ last = h_last h))
    (Hw1 : w1 = setd w vhr (DHolder (Hold last (h_deposited h - withdraw_amount h amount))))
    (Hw2 : transferred e (fun k => k =? pool) w1 ptok mnt tacc pool (withdraw_amount h amount) w2)
    (Ho : forall k, own (get w' k) = own (get w2 k))
    (Hdat : forall k, dat (get w' k) = dat (get w2 k))
    (Hl : forall k, lam (get w' k) = pay_lam w pool owner r k)
    (Hlb : r <> 0 -> pay_lam w pool owner r owner < U64)
    (Hlp : r <= lam (get w pool)) (Hav : r <= pool_available e w pool).
Lemma rewards_withdraw_ok e sig w pool ptok vhr tacc mnt owner tp amount acc w' :
  rewards_withdraw e sig w pool ptok vhr tacc mnt owner tp amount acc = Ok w' ->
  withdrawn_ok e sig w pool ptok vhr tacc mnt owner amount acc w'.
Proof.
  intros H. unfold rewards_withdraw in H. stepn H h Eh.
  apply rewards_checked_ok in Eh as (P1 & P2 & P3 & P4 & P5 & P6 & P7).
  stepn H t Et. apply token_at_ok in Et as [Et1 Et2]. stepg H Gtk.
  apply andb_true_iff in Gtk as [G1 G2]. b2p G1. b2p G2. stepg H Gp. cbv zeta in H.
  stepn H p Ep. stepg H Gd. stepg H Ga. stepn H r Er. stepn H w2 E2.
  apply token_transfer_ok in E2. apply pool_pay_ok in H as (Q0 & Q1 & Q2 & Q3 & Q4).
  eapply (WithdrawnOk e sig w pool ptok vhr tacc mnt owner amount acc w' h r
    (if r <=? pool_available e w pool then r else 0)
    (if r <=? pool_available e w pool then acc else h_last h)); eauto.
  - destruct (r <=? pool_available e w pool); auto.
  - intros k. rewrite Q3. unfold pay_lam. destruct E2 as [? ? ? ? ? ? ? ? ? ? ? ? ? Hl' ? ?].
    rewrite !Hl'. now ws.
  - intros R. specialize (Q4 R). unfold pay_lam in *. destruct E2 as [? ? ? ? ? ? ? ? ? ? ? ? ? Hl' ? ?].
    rewrite !Hl' in Q4. wsi Q4. exact Q4.
  - destruct E2 as [? ? ? ? ? ? ? ? ? ? ? ? ? Hl' ? ?]. rewrite Hl' in Q0. wsi Q0. exact Q0.
  - destruct (N.leb_spec r (pool_available e w pool)); lia.
Qed.

Lemma pay_lam_other w pool owner r k : k <> pool -> k <> owner -> pay_lam w pool owner r k = lam (get w k).
Proof.
  intros. unfold pay_lam. destruct (r =? 0); auto.
  destruct (N.eqb_spec owner k); try congruence. destruct (N.eqb_spec pool k); congruence.
Qed.

Lemma rharvested_frame e sig w pool ptok vhr mnt owner acc w' :
  rharvested e sig w pool ptok vhr mnt owner acc w' -> ext_frame e w w' pool owner vhr.
Proof.
  intros [h r ? ? ? ? Hvo ? ? ? Ho Hdat Hl]. split; auto.
  - intros k NE. rewrite Hdat in NE. destruct (N.eqb_spec vhr k); subst; [auto|congruence].
  - intros k N1 N2. rewrite Hl. apply pay_lam_other; auto.
Qed.

Lemma ext_frame_trans e w w1 w2 pool owner vhr :
  ext_frame e w w1 pool owner vhr -> ext_frame e w1 w2 pool owner vhr -> ext_frame e w w2 pool owner vhr.
Proof.
  intros [A1 A2 A3] [B1 B2 B3]. split.
  - intros k. rewrite B1; auto.
  - intros k NE. destruct (decide (dat (get w1 k) = dat (get w k))) as [E|NE1].
    + rewrite <- E in NE. apply B2 in NE. rewrite A1 in NE. auto.
    + auto.
  - intros k N1 N2. rewrite B3; auto.
Qed.

Lemma deposited_frame e sig w pool ptok vhr tacc mnt owner amount acc w' :
  deposited_ok e sig w pool ptok vhr tacc mnt owner amount acc w' -> ext_frame e w w' pool owner vhr.
Proof.
  intros [h r w1 w2 ? ? ? ? Hvo Hh ? ? ? ? Hw1 Hw2 Ho Hdat Hl].
  apply (transferred_frame _ _ _ _ _ _ _ _ _ pool owner vhr) in Hw2.
  assert (ext_frame e w w1 pool owner vhr) as F1.
  { subst w1. split; intros k; ws; auto. destruct (N.eqb_spec vhr k); subst; [auto|congruence]. }
  pose proof (ext_frame_trans _ _ _ _ _ _ _ F1 Hw2) as [A1 A2 A3]. split.
  - intros k. rewrite Ho; auto.
  - intros k. rewrite Hdat; auto.
  - intros k N1 N2. rewrite Hl. apply pay_lam_other; auto.
Qed.
Lemma withdrawn_frame e sig w pool ptok vhr tacc mnt owner amount acc w' :
  withdrawn_ok e sig w pool ptok vhr tacc mnt owner amount acc w' -> ext_frame e w w' pool owner vhr.
Proof.
  intros [h r0 r last w1 w2 ? ? ? ? Hvo Hh ? ? ? ? ? Hw1 Hw2 Ho Hdat Hl].
  apply (transferred_frame _ _ _ _ _ _ _ _ _ pool owner vhr) in Hw2.
  assert (ext_frame e w w1 pool owner vhr) as F1.
  { subst w1. split; intros k; ws; auto. destruct (N.eqb_spec vhr k); subst; [auto|congruence]. }
  pose proof (ext_frame_trans _ _ _ _ _ _ _ F1 Hw2) as [A1 A2 A3]. split.
  - intros k. rewrite Ho; auto.
  - intros k. rewrite Hdat; auto.
  - intros k N1 N2. rewrite Hl. apply pay_lam_other; auto.
Qed.
