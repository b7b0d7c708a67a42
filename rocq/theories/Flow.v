(** Where lamports go. *)
From Verif Require Import Base Types Layout Instr Math External Processor Runtime History Spec
  WorldLemmas Effects Handlers Evolve Sane Wf Totals Nets Caps Stakers Deposits Inv Life Gov.

(** Only accounts in [P] gain lamports and only accounts in [Q] lose them. *)
Definition flow (P Q : pubkey -> Prop) (w w' : world) : Prop := forall k,
  (lam (get w k) < lam (get w' k) -> P k) /\ (lam (get w' k) < lam (get w k) -> Q k).
Lemma flow_same P Q w w' : (forall k, lam (get w' k) = lam (get w k)) -> flow P Q w w'.
Proof. intros E k. rewrite E. lia. Qed.
Lemma flow_trans P Q w1 w2 w3 : flow P Q w1 w2 -> flow P Q w2 w3 -> flow P Q w1 w3.
Proof.
  intros A B k. destruct (A k) as [A1 A2], (B k) as [B1 B2]. split; intros L.
  - destruct (N.lt_ge_cases (lam (get w1 k)) (lam (get w2 k))); [auto|]. apply B1. lia.
  - destruct (N.lt_ge_cases (lam (get w2 k)) (lam (get w1 k))); [auto|]. apply B2. lia.
Qed.
Lemma flow_weaken (P Q Q' : pubkey -> Prop) w w' : (forall k, Q k -> Q' k) -> flow P Q w w' -> flow P Q' w w'.
Proof. intros I F k. destruct (F k). split; auto. Qed.
Lemma flow_harvest (P Q : pubkey -> Prop) e (w : world) ck vhr auth va sk keeper w' : harvested e w ck vhr auth va sk keeper w' ->
  P auth -> P ck -> (forall k, keeper = Some k -> P k) -> Q ck -> flow P Q w w'.
Proof.
  intros [] PA PC PK QC k. rewrite Hlams. unfold paid_lam, keeper_lam.
  destruct (N.eqb_spec auth k) as [<-|]; [split; auto; intros L|].
  - destruct keeper as [x|]; [destruct (x =? auth)|]; lia.
  - destruct (N.eqb_spec ck k) as [<-|]; [split; auto|]. destruct keeper as [x|]; [|lia].
    destruct (N.eqb_spec x k) as [<-|]; [|lia]. split; [auto|lia].
Qed.
Lemma flow_resync P Q w ck sk lim w' : resynced w ck sk lim w' -> flow P Q w w'.
Proof. intros []. now apply flow_same. Qed.
Lemma flow_setd P Q w k D : flow P Q w (setd w k D).
Proof. apply flow_same. intros. now ws. Qed.
Lemma flow_put_del P Q w k D : flow P Q w (put_del w k D).
Proof. apply flow_same. intros. now ws. Qed.
Lemma flow_pay (P Q : pubkey -> Prop) w w' pool owner r : r <= lam (get w pool) ->
  (forall k, lam (get w' k) = pay_lam w pool owner r k) ->
  P owner -> (r <> 0 -> Q pool) -> flow P Q w w'.
Proof.
  intros HL H PO QP k. rewrite H. unfold pay_lam. destruct (N.eqb_spec r 0) as [|NZ]; [lia|]. specialize (QP NZ).
  destruct (N.eqb_spec owner k) as [<-|]; [split; auto; intros L|].
  - destruct (N.eqb_spec pool owner) as [E|]; [rewrite E in *; auto|lia].
  - destruct (N.eqb_spec pool k) as [<-|]; [split; auto|]; lia.
Qed.
Lemma pay_keeps e w pool owner r : r <> 0 -> r <= pool_available e w pool -> e_rent e 64 <= pay_lam w pool owner r pool.
Proof.
  unfold pool_available, pay_lam. intros NZ L. destruct (N.eqb_spec r 0); [contradiction|]. rewrite N.eqb_refl.
  destruct (N.eqb_spec owner pool) as [->|]; [rewrite N.eqb_refl|]; lia.
Qed.
Lemma flow_revalidated (P Q : pubkey -> Prop) e w ck vhr vs vk vauth f w' : revalidated e w ck vhr vs vk vauth f w' ->
  P vauth -> P ck -> Q ck -> flow P Q w w'.
Proof.
  intros [] PA PC QC. apply flow_trans with w1; [eapply flow_harvest; eauto; discriminate|].
  apply flow_trans with w2; [rewrite H2; apply flow_setd|eapply flow_resync; eauto].
Qed.

(** The recorded authorities of a config's stake accounts. *)
Definition stake_authority (e : env) (w : world) (ck k : pubkey) : Prop :=
  exists sk d, stake_of e w ck sk = Some d /\ authority d = k.
Lemma stake_authority_back e w w' ck k : evolves e w w' -> gframe e w w' ->
  stake_authority e w' ck k -> stake_authority e w ck k.
Proof.
  intros EV [GO GT] (sk & d' & S & A). apply stake_of_some in S as (O & D & B). rewrite GO in O.
  pose proof (ev_id _ _ _ EV sk O) as I. specialize (GT sk O). destruct (dat (get w' sk)) eqn:E; try contradiction.
  - injection D as <-. apply same_id_val in I as (v0 & V & VT). rewrite V in GT. injection GT as _ GA.
    exists sk, (v_del v0). split; [|congruence]. apply stake_of_intro; rewrite ?V; simpl in *; congruence.
  - injection D as <-. apply same_id_sol in I as (v0 & V & VT & _). rewrite V in GT. injection GT as GA.
    exists sk, (s_del v0). split; [|congruence]. apply stake_of_intro; rewrite ?V; simpl in *; congruence.
Qed.
Lemma harvest_authority e w ck vhr auth va sk keeper w' : harvested e w ck vhr auth va sk keeper w' ->
  own (get w sk) = e_prog e -> belongs e ck sk (dat (get w sk)) -> stake_authority e w ck auth.
Proof. intros [] O B. exists sk, d. split; [|auto]. now apply stake_of_intro. Qed.
Lemma revalidated_authority e w ck vhr vs vk vt vauth f w' : env_ok e -> sane e w -> revalidated e w ck vhr vs vk vauth f w' ->
  own (get w vk) = e_prog e -> vk = e_val e vt ck -> stake_authority e w ck vauth.
Proof.
  intros OK S H O K. assert (exists v, dat (get w vk) = DVal v) as (v & V).
  { pose proof (evolves_revalidated _ _ _ _ _ _ _ _ _ H) as EV. destruct H.
    pose proof (ev_id _ _ _ (evolves_harvest _ _ _ _ _ _ _ _ _ H1) vk O) as I. rewrite Hv in I.
    apply same_id_val in I as (v0 & V & _). eauto. }
  destruct (sane_val_belongs _ _ _ _ _ _ OK S O V K) as [VT SO]. destruct H.
  eapply harvest_authority; eauto. rewrite V. simpl. congruence.
Qed.

Definition keeper_of (c : call) : option pubkey :=
  match c with CHarvestSolStakerRewards a => hs_keeper a | _ => None end.
Definition may_gain (e : env) (w : world) (c : call) (k : pubkey) : Prop :=
  stake_authority e w (call_config c) k \/ keeper_of c = Some k \/ k = call_config c \/ k = e_vault e (call_config c).
Definition may_lose (e : env) (w : world) (c : call) (k : pubkey) : Prop :=
  k = call_config c \/ k = e_vault e (call_config c) \/ own (get w k) = e_rewards e.
(** More exactly: the vault's authority only loses in [HarvestHolderRewards], which
    leaves it its rent minimum, and other than that a rewards pool, which keeps its own. *)
Definition loses (e : env) (w w' : world) (c : call) (k : pubkey) : Prop :=
  k = call_config c \/
  (k = e_vault e (call_config c) /\ lam (get w' k) = e_rent e (data_len (dat (get w k))) /\ exists a, c = CHarvestHolderRewards a) \/
  (own (get w k) = e_rewards e /\ (exists m, k = e_pool e m) /\ e_rent e 64 <= lam (get w' k)).
Lemma flow_fine e cx w w' c : env_ok e -> sane e w -> did e cx w w' c ->
  flow (may_gain e w c) (loses e w w' c) w w'.
Proof.
  intros OK S D. unfold may_gain, loses.
  assert (forall a n, staked_any e cx a n w w' -> flow (fun k => stake_authority e w (st_config a) k \/ None = Some k \/ k = st_config a \/ k = e_vault e (st_config a))
      (fun k => k = st_config a \/
        (own (get w k) = e_rewards e /\ (exists m, k = e_pool e m) /\ e_rent e 64 <= lam (get w' k))) w w') as ST.
  { intros a n []. pose proof (evolves_staked _ _ _ _ _ _ OK H) as EV. destruct H.
    apply flow_trans with w1; [eapply flow_harvest; eauto; try discriminate; left; eapply harvest_authority; eauto|].
    apply flow_trans with w2; [rewrite H2; apply flow_put_del|].
    apply flow_trans with w3; [eapply flow_resync; eauto|].
    apply flow_trans with w4; [destruct H4; now apply flow_same|].
    assert (own (get w4 (st_pool a)) = own (get w (st_pool a))) as PO.
    { transitivity (own (get w3 (st_pool a))); [destruct H4; auto|].
      transitivity (own (get w2 (st_pool a))); [destruct H3; auto|]. rewrite H2. ws.
      exact (ev_own _ _ _ (evolves_harvest _ _ _ _ _ _ _ _ _ H1) _). }
    destruct H5. eapply flow_pay; eauto. intros NZ. right. split; [congruence|]. split; [eauto|].
    rewrite Hl. now apply pay_keeps. }
  assert (forall a n, slashed_any e cx a n w w' -> flow (fun k => stake_authority e w (sl_config a) k \/ None = Some k \/ k = sl_config a \/ k = e_vault e (sl_config a))
      (fun k => k = sl_config a \/
        (own (get w k) = e_rewards e /\ (exists m, k = e_pool e m) /\ e_rent e 64 <= lam (get w' k))) w w') as SL.
  { intros a n [c0 ? ? ? ? []].
    apply flow_trans with w1; [eapply flow_harvest; eauto; try discriminate; left; eapply harvest_authority; eauto|].
    apply flow_trans with w2; [rewrite H2; apply flow_put_del|].
    apply flow_trans with w3; [|eapply flow_resync; eauto].
    destruct H3 as [[_ ->]|(_ & _ & [])]; now apply flow_same. }
  destruct D; simpl; try (eapply flow_weaken; [|eauto]; cbv beta; tauto).
  - destruct H. now apply flow_same.
  - destruct H. now apply flow_same.
  - pose proof (evolves_held _ _ _ _ _ OK H) as EV. destruct H.
    assert (hh_vault_pda a = e_vault e (hh_config a)) as VA by (eapply vault_auth_eq; eauto; split; eauto).
    destruct (sane_cfg _ _ S _ _ (conj Hco Hc0)) as (_ & _ & _ & VO & VD). rewrite <- VA in VO, VD.
    assert (forall k, own (get w1 k) = own (get w k)) as O1 by (destruct H1; subst; intros k; now ws).
    assert (hh_config a <> hh_vault_pda a) as NE by (intros E; rewrite <- E in VD; congruence).
    destruct H2. assert (hh_pool a <> hh_vault_pda a) as NPV.
    { intros E. rewrite E, O1 in Hpo. destruct (prog_ids _ OK) as (_ & _ & P & _ & _ & _ & _ & P0). destruct VO; congruence. }
    assert (hh_pool a <> hh_config a) as NPC.
    { intros E. rewrite E, O1 in Hpo. destruct (prog_ids _ OK) as (_ & _ & P & _). congruence. }
    assert (data_len (dat (get w2 (hh_vault_pda a))) = data_len (dat (get w (hh_vault_pda a)))) as DL.
    { rewrite Hdat. destruct (N.eqb_spec (hh_vhr a) (hh_vault_pda a)) as [E|].
      - rewrite E in Hh. destruct H1; subst w1. wsi Hh. destruct (N.eqb_spec (hh_config a) (hh_vault_pda a)); congruence.
      - destruct H1; subst w1. ws. destruct (N.eqb_spec (hh_config a) (hh_vault_pda a)); congruence. }
    apply flow_trans with w1; [destruct H1; subst; apply flow_setd|].
    apply flow_trans with w2.
    { eapply flow_pay; eauto. intros NZ. right; right. rewrite <- O1. split; [auto|]. split; [eauto|].
      rewrite H4, H3. ws. destruct (N.eqb_spec (hh_config a) (hh_pool a)); [congruence|].
      destruct (N.eqb_spec (hh_vault_pda a) (hh_pool a)); [congruence|]. rewrite Hl. now apply pay_keeps. }
    assert (lam (get w' (hh_vault_pda a)) = e_rent e (data_len (dat (get w (hh_vault_pda a))))) as LV.
    { rewrite H4, H3, DL. ws. destruct (N.eqb_spec (hh_config a) (hh_vault_pda a)); [congruence|]. now rewrite N.eqb_refl. }
    rewrite H4 in LV |- *. apply flow_trans with w3; [|apply flow_setd]. rewrite H3 in LV |- *. intros k. rewrite <- VA. revert LV. ws.
    destruct (N.eqb_spec (hh_config a) k) as [<-|]; [split; auto|].
    destruct (N.eqb_spec (hh_vault_pda a) k) as [<-|]; [split; [auto|]; intros _; right; left; split; [auto|split; [now rewrite DL|eauto]]|lia].
  - destruct H. eapply flow_harvest; eauto; try discriminate. left. eapply harvest_authority; eauto. now rewrite Hv.
  - destruct H. subst w'. apply flow_setd.
  - destruct H. subst w'. apply flow_setd.
  - destruct H. now apply flow_same.
  - destruct H; [eapply flow_harvest; eauto; try discriminate; left; eapply harvest_authority; eauto; now rewrite Hs|].
    assert (belongs e (hs_config a) (hs_stake a) (dat (get w (hs_stake a)))) as BE by now rewrite Hs.
    pose proof (evolves_harvest _ _ _ _ _ _ _ _ _ H1) as E1. pose proof (gframe_harvest _ _ _ _ _ _ _ _ _ H1) as G1.
    pose proof (evolves_left _ _ _ _ _ H2) as E2. pose proof (gframe_left _ _ _ _ _ H2) as G2.
    pose proof (sane_evolves _ _ _ S E1) as S1. pose proof (sane_evolves _ _ _ S1 E2) as S2.
    apply flow_trans with w1; [eapply flow_harvest; eauto; [left; eapply harvest_authority; eauto|intros k [= <-]; auto]|].
    apply flow_trans with w2.
    { destruct H2; [|subst w2; now apply flow_same]. eapply flow_revalidated; eauto. left.
      eapply stake_authority_back; eauto. eapply revalidated_authority; eauto. }
    apply flow_trans with w3.
    { destruct H3; [|subst w3; now apply flow_same..]. eapply flow_revalidated; eauto. left.
      eapply stake_authority_back; [| |eapply revalidated_authority; [exact OK|exact S2|exact H| |]]; eauto using evolves_trans, gframe_trans. }
    apply flow_trans with w4; [rewrite H4; apply flow_setd|eapply flow_resync; eauto].
  - pose proof (evolves_unstaked _ _ _ _ _ _ OK H) as EV. destruct H.
    apply flow_trans with w1; [eapply flow_harvest; eauto; try discriminate; left; eapply harvest_authority; eauto|].
    apply flow_trans with w2; [rewrite H2; apply flow_put_del|].
    apply flow_trans with w3; [eapply flow_resync; eauto|].
    apply flow_trans with w4; [|destruct H5 as [? ? ? ? ? ? ? ? ? ? ? ? ? Hlt ? ?]; now apply flow_same].
    assert (own (get w3 (un_pool a)) = own (get w (un_pool a))) as PO.
    { transitivity (own (get w2 (un_pool a))); [destruct H3; auto|]. rewrite H2. ws.
      exact (ev_own _ _ _ (evolves_harvest _ _ _ _ _ _ _ _ _ H1) _). }
    destruct H5 as [? ? ? ? ? ? ? ? ? ? ? ? ? Hlt ? ?]. destruct H4. eapply flow_pay; eauto. intros NZ. right; right. split; [congruence|]. split; [eauto|].
    rewrite Hlt, Hl. now apply pay_keeps.
  - destruct H. pose proof (evolves_harvest _ _ _ _ _ _ _ _ _ H1) as E1. pose proof (gframe_harvest _ _ _ _ _ _ _ _ _ H1) as G1.
    apply flow_trans with w1; [eapply flow_harvest; eauto; try discriminate; left; eapply harvest_authority; eauto; now rewrite Hs0|].
    apply flow_trans with w2.
    { eapply flow_harvest; eauto; try discriminate. left. eapply stake_authority_back; eauto. eapply harvest_authority; eauto.
      - now rewrite (ev_own _ _ _ E1).
      - now rewrite Ht0. }
    apply flow_trans with w3; [rewrite H3; apply flow_put_del|].
    apply flow_trans with w4; [rewrite H4; apply flow_put_del|].
    apply flow_trans with w5; eapply flow_resync; eauto.
  - destruct H. apply flow_trans with w1; [eapply flow_harvest; eauto; try discriminate; left; eapply harvest_authority; eauto; now rewrite Hv0|].
    apply flow_trans with w2; [rewrite H2; apply flow_setd|eapply flow_resync; eauto].
  - destruct H. subst w'. apply flow_put_del.
Qed.
Lemma flow_did e cx w w' c : env_ok e -> sane e w -> did e cx w w' c ->
  flow (may_gain e w c) (may_lose e w c) w w'.
Proof.
  intros OK S D k. destruct (flow_fine _ _ _ _ _ OK S D k) as [A B]. split; [exact A|].
  intros L. unfold may_lose. destruct (B L) as [|[[X _]|[X _]]]; auto.
Qed.
