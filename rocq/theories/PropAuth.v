(** C12, C14, C30, C32, C34, C41: who may change what. *)
From Verif Require Import Base Types Layout Instr Math External Processor Runtime History Spec
  WorldLemmas Effects Handlers Evolve Sane Wf Arith Totals Nets Caps Stakers Deposits Inv Life Tokens Gov Flow Demo.

(** ** C12 *)
Theorem C12_stake_reduction e cx c w w' ck k d d' : env_ok e -> reachable e w -> run e cx c w = Ok w' ->
  stake_of e w ck k = Some d -> stake_of e w' ck k = Some d' -> staked d' < staked d ->
  match c with
  | CUnstakeTokens a _ => k = un_stake a /\ signed cx (authority d) = true
  | CSolStakerMoveTokens a _ => k = mv_source a /\ signed cx (authority d) = true
  | CSlashValidatorStake a _ | CSlashSolStakerStake a _ =>
      k = sl_stake a /\ exists cf, config_at e w ck cf /\ cfg_slash cf <> 0 /\ signed cx (cfg_slash cf) = true
  | _ => False
  end.
Proof.
  intros OK R RUN S1 S2 LT. pose proof (i_sane _ _ (inv_reachable _ _ OK R)) as S. apply run_ok in RUN as (_ & D & _).
  destruct (stake_of_some _ _ _ _ _ S1) as (O1 & D1 & B1).
  assert (stake_of e w' ck k <> stake_of e w ck k) as CH by (rewrite S1, S2; intros [= ->]; lia).
  assert (forall a n, slashed_any e cx a n w w' -> k = sl_stake a /\
    exists cf, config_at e w ck cf /\ cfg_slash cf <> 0 /\ signed cx (cfg_slash cf) = true) as SL.
  { intros a n H. pose proof (slashed_net _ _ _ _ _ _ OK H) as C. destruct H.
    destruct (chained_stake _ _ _ _ _ _ _ _ C Hso Hbel) as (cq & dq & hq & rq & srq & hrq & RD & T1 & T2 & OT); [reflexivity|].
    destruct (N.eq_dec k (sl_stake a)) as [E|NE]; [|exfalso; eapply CH, OT; auto]. split; [auto|]. subst k.
    pose proof (belongs_unique _ _ _ _ _ OK Hbel B1) as <-.
    exists c0. split; [split; auto|]. destruct H as [c2 c3]. rewrite Hc0 in Hc1. injection Hc1 as <-.
    destruct (gframe_harvest _ _ _ _ _ _ _ _ _ H1) as [_ G]. specialize (G _ Hco). rewrite Hc0, Hc in G.
    injection G as _ G _ _ _. rewrite <- G. split; [auto|]. now rewrite <- Hau. }
  destruct (quiet c) eqn:Q.
  { destruct (sframe_quiet _ _ _ _ _ OK D Q) as [_ F]. specialize (F _ O1).
    destruct (stake_of_some _ _ _ _ _ S2) as (_ & D2 & _).
    rewrite (stk_del _ _ D1), (stk_del _ _ D2) in F. injection F as F _. lia. }
  destruct D; try discriminate Q; eauto.
  - apply CH. eapply stake_of_created_config; eauto.
  - destruct (stake_of_created_val _ _ _ _ _ OK H) as [(d0 & _ & _ & _ & N0) OT].
    destruct (N.eq_dec k (iv_stake a)) as [->|NE]; [contradiction|]. apply CH. auto.
  - pose proof (staked_net _ _ _ _ _ _ OK H) as C. destruct H.
    destruct (chained_stake _ _ _ _ _ _ _ _ C Hso Hbel) as (cq & dq & hq & rq & srq & hrq & RD & T1 & T2 & OT); [reflexivity|].
    destruct (N.eq_dec k (st_stake a)) as [->|NE]; [|apply CH, OT; auto].
    pose proof (belongs_unique _ _ _ _ _ OK Hbel B1) as <-. rewrite S1 in T1. rewrite S2 in T2.
    injection T1 as <-. injection T2 as ->. simpl in LT. lia.
  - destruct (stake_of_created_sol _ _ _ _ _ OK H) as [(d0 & _ & _ & _ & N0) OT].
    destruct (N.eq_dec k (is_stake a)) as [->|NE]; [contradiction|]. apply CH. auto.
  - pose proof (staked_net _ _ _ _ _ _ OK H) as C. destruct H.
    destruct (chained_stake _ _ _ _ _ _ _ _ C Hso Hbel) as (cq & dq & hq & rq & srq & hrq & RD & T1 & T2 & OT); [reflexivity|].
    destruct (N.eq_dec k (st_stake a)) as [->|NE]; [|apply CH, OT; auto].
    pose proof (belongs_unique _ _ _ _ _ OK Hbel B1) as <-. rewrite S1 in T1. rewrite S2 in T2.
    injection T1 as <-. injection T2 as ->. simpl in LT. lia.
  - destruct (unstaked_net _ _ _ _ _ _ OK H) as (c & _ & C). destruct H.
    destruct (chained_stake _ _ _ _ _ _ _ _ C Hso Hbel) as (cq & dq & hq & rq & srq & hrq & RD & T1 & T2 & OT); [reflexivity|].
    destruct (N.eq_dec k (un_stake a)) as [E|NE]; [|exfalso; apply CH, OT; auto]. split; [auto|]. subst k.
    rewrite D1 in Hd0. injection Hd0 as <-. now rewrite <- Hau.
  - pose proof (moved_net_ok _ _ _ _ _ _ H) as M. destruct H.
    destruct (N.eq_dec k (mv_source a)) as [E|NS].
    { split; [auto|]. subst k. rewrite Hs0 in D1. injection D1 as <-. now rewrite Hau. }
    exfalso. destruct (N.eq_dec k (mv_dest a)) as [E|ND].
    + subst k. destruct M. rewrite Ht1 in D1. injection D1 as <-.
      destruct (stake_of_some _ _ _ _ _ S2) as (_ & D2 & _). rewrite Ht' in D2. injection D2 as <-.
      rewrite Hdt in LT. simpl in LT. lia.
    + apply CH. eapply moved_stake; eauto.
Qed.
Print Assumptions C12_stake_reduction.
(* no stake account disappears either *)
Theorem C12_stake_stays e cx c w w' ck k d : env_ok e -> reachable e w -> run e cx c w = Ok w' ->
  stake_of e w ck k = Some d -> exists d', stake_of e w' ck k = Some d'.
Proof.
  intros OK R RUN S1. pose proof (i_sane _ _ (inv_reachable _ _ OK R)) as S. apply run_ok in RUN as (_ & D & _).
  destruct (stake_of_some _ _ _ _ _ S1) as (O1 & D1 & B1). 
  destruct (kept_did _ _ _ _ _ OK S D k O1) as [O2 I]; [intros b E; rewrite E in B1; destruct B1|].
  pose proof (same_id_belongs _ _ _ _ _ I B1) as B2. destruct (belongs_del _ _ _ _ B2) as (d' & D2).
  exists d'. apply stake_of_intro; auto.
Qed.
Print Assumptions C12_stake_stays.
Example C12_case : let l := firstn 13 story in
  reachable denv (at_end l) /\ runs (l ++ [move nat1 nat2 bob 800]) = true /\
  staked (s_del (sol_of (at_end l) ksol1)) = 2000 /\
  staked (s_del (sol_of (at_end (l ++ [move nat1 nat2 bob 800])) ksol1)) = 1200 /\
  stake_of denv (at_end l) kcfg ksol1 = Some (s_del (sol_of (at_end l) ksol1)) /\
  runs (l ++ [move nat1 nat2 alice 800]) = false.
Proof. split; [apply at_end_reachable; vm_compute; reflexivity|]. vm_compute. auto. Qed.

(** ** C14 *)
Theorem C14_config_changes e cx c w w' k cf cf' : env_ok e -> reachable e w -> run e cx c w = Ok w' ->
  config_at e w k cf -> config_at e w' k cf' ->
  (cfg_authority cf' <> cfg_authority cf \/ cfg_cooldown cf' <> cfg_cooldown cf \/
   cfg_bps cf' <> cfg_bps cf \/ cfg_sync cf' <> cfg_sync cf ->
   cfg_authority cf <> 0 /\ signed cx (cfg_authority cf) = true) /\
  (cfg_slash cf' <> cfg_slash cf -> cfg_slash cf <> 0 /\ signed cx (cfg_slash cf) = true).
Proof.
  intros OK R RUN [O1 D1] [O2 D2]. pose proof (i_sane _ _ (inv_reachable _ _ OK R)) as S.
  apply run_ok in RUN as (_ & D & _).
  assert (terms (dat (get w' k)) = terms (dat (get w k)) -> cfg_authority cf' = cfg_authority cf /\
     cfg_slash cf' = cfg_slash cf /\ cfg_cooldown cf' = cfg_cooldown cf /\ cfg_bps cf' = cfg_bps cf /\
     cfg_sync cf' = cfg_sync cf) as SAME.
  { rewrite D1, D2. simpl. intros [= A1 A2 A3 A4 A5]. auto. }
  destruct (governs c) eqn:G.
  - destruct D; try discriminate G.
    + destruct H. subst w'. wsi D2. destruct (N.eqb_spec (sa_account a) k) as [<-|NE].
      * rewrite D1 in Hc. injection Hc as <-. injection D2 as <-. simpl in Hau. destruct t; rewrite <- Hau; simpl; split; intros X; auto;
          exfalso; repeat (destruct X as [X|X]; [congruence|]); congruence.
      * rewrite D1 in D2. injection D2 as <-. split; intros X; exfalso; repeat (destruct X as [X|X]; [congruence|]); congruence.
    + destruct H. subst w'. wsi D2. destruct (N.eqb_spec (uc_config a) k) as [<-|NE].
      * rewrite D1 in Hc. injection Hc as <-. injection D2 as <-. rewrite <- Hau. split; [intros _; rewrite Hau at 1; auto|].
        destruct f; simpl; congruence.
      * rewrite D1 in D2. injection D2 as <-. split; intros X; exfalso; repeat (destruct X as [X|X]; [congruence|]); congruence.
    + destruct (gov_overridden _ _ _ _ _ _ H) as [GO (v & v' & V1 & _)].
      destruct (N.eq_dec k (ov_stake a)) as [->|NE]; [congruence|]. specialize (GO k NE O1). tauto.
    + destruct H. subst w'. wsi D2. destruct (N.eqb_spec (sy_stake a) k) as [<-|NE]; [congruence|].
      rewrite D1 in D2. injection D2 as <-. split; intros X; exfalso; repeat (destruct X as [X|X]; [congruence|]); congruence.
  - assert (terms (dat (get w' k)) = terms (dat (get w k))) as E.
    { destruct (creates c) eqn:C; [|eapply gframe_did; eauto].
      eapply gov_created; eauto. now rewrite D1. }
    apply SAME in E. tauto.
Qed.
Print Assumptions C14_config_changes.
Theorem C14_minimum_changes e cx c w w' k v v' : env_ok e -> reachable e w -> run e cx c w = Ok w' ->
  val_at e w k v -> val_at e w' k v' -> v_min v' <> v_min v ->
  exists ck cf, stake_of e w ck k = Some (v_del v) /\ config_at e w ck cf /\
    cfg_authority cf <> 0 /\ signed cx (cfg_authority cf) = true.
Proof.
  intros OK R RUN [O1 D1] [O2 D2] NE. pose proof (i_sane _ _ (inv_reachable _ _ OK R)) as S.
  apply run_ok in RUN as (_ & D & _).
  assert (terms (dat (get w' k)) <> terms (dat (get w k))) as CH by (rewrite D1, D2; simpl; congruence).
  destruct (governs c) eqn:G.
  - destruct D; try discriminate G.
    + destruct H. subst w'. exfalso. wsi D2. destruct (N.eqb_spec (sa_account a) k) as [<-|]; congruence.
    + destruct H. subst w'. exfalso. wsi D2. destruct (N.eqb_spec (uc_config a) k) as [<-|]; congruence.
    + destruct (gov_overridden _ _ _ _ _ _ H) as [GO _].
      destruct (N.eq_dec k (ov_stake a)) as [->|NK]; [|exfalso; apply CH, GO; auto].
      destruct H. exists (ov_config a), c0. rewrite D1 in Hv0. injection Hv0 as <-.
      split; [apply stake_of_intro; rewrite ?D1; auto|]. split; [split; auto|]. rewrite <- Hau. split; [rewrite Hau|]; auto.
    + destruct H. subst w'. exfalso. wsi D2. destruct (N.eqb_spec (sy_stake a) k) as [<-|]; [|congruence].
      rewrite D1 in Hv, D2. injection Hv as <-. injection D2 as <-. auto.
  - exfalso. apply CH. destruct (creates c) eqn:C; [|eapply gframe_did; eauto].
    eapply gov_created; eauto. now rewrite D1.
Qed.
Print Assumptions C14_minimum_changes.
Lemma unset_step e w ev w' k cf : env_ok e -> reachable e w -> step e w ev w' -> config_at e w k cf ->
  exists cf', config_at e w' k cf' /\ (cfg_authority cf = 0 -> cfg_authority cf' = 0) /\
    (cfg_slash cf = 0 -> cfg_slash cf' = 0).
Proof.
  intros OK R ST C. pose proof (inv_reachable _ _ OK R) as I.
  destruct (kept_config _ _ _ _ _ (kept_step _ _ _ _ OK I ST) C) as (cf' & C' & _). exists cf'. split; [auto|].
  inversion ST as [? cx c ? Wc Wl RUN|? ? RL]; subst.
  - destruct (C14_config_changes _ _ _ _ _ _ _ _ OK R RUN C C') as [A B]. split; intros Z.
    + destruct (N.eq_dec (cfg_authority cf') (cfg_authority cf)) as [E|NE]; [congruence|]. tauto.
    + destruct (N.eq_dec (cfg_slash cf') (cfg_slash cf)) as [E|NE]; [congruence|]. tauto.
  - pose proof (rely_config _ _ _ _ _ RL C') as C2. destruct C as [_ C], C2 as [_ C2]. rewrite C in C2.
    injection C2 as <-. auto.
Qed.
Lemma reachable_steps e w tr w' : reachable e w -> steps e w tr w' -> reachable e w'.
Proof. intros R ST. induction ST; eauto using reachable_step. Qed.
Theorem C14_unset_forever e w tr w' k cf : env_ok e -> reachable e w -> steps e w tr w' -> config_at e w k cf ->
  exists cf', config_at e w' k cf' /\ (cfg_authority cf = 0 -> cfg_authority cf' = 0) /\
    (cfg_slash cf = 0 -> cfg_slash cf' = 0).
Proof.
  intros OK R ST C. induction ST as [|w tr w1 ev w2 ST IH E]; [eauto|].
  destruct IH as (c1 & C1 & A1 & B1); auto.
  destruct (unset_step _ _ _ _ _ _ OK (reachable_steps _ _ _ _ R ST) E C1) as (c2 & C2 & A2 & B2). exists c2. auto.
Qed.
Print Assumptions C14_unset_forever.
Definition set_authority_to (t : authority_type) (old new : N) : act :=
  Call (cx [old] 0 None 0) (CSetAuthority (SetAuthA kcfg old new) t).
Definition set_cooldown_to (auth n : N) : act :=
  Call (cx [auth] 0 None 0) (CUpdateConfig (UpdateConfigA kcfg auth) (CooldownTimeSeconds n)).
Example C14_case :
  runs (story ++ [set_authority_to AuthConfig gov dave]) = true /\
  cfg_authority (cfg_of (at_end (story ++ [set_authority_to AuthConfig gov dave])) kcfg) = dave /\
  runs (story ++ [set_authority_to AuthConfig dave alice]) = false /\
  runs (story ++ [set_authority_to AuthSlash slasher 0]) = true /\
  cfg_slash (cfg_of (at_end (story ++ [set_authority_to AuthSlash slasher 0])) kcfg) = 0 /\
  runs (story ++ [set_authority_to AuthSlash slasher 0; set_authority_to AuthSlash slasher dave]) = false /\
  runs (story ++ [set_cooldown_to gov 7]) = true /\ runs (story ++ [set_cooldown_to bob 7]) = false /\
  v_min (val_of (at_end story) kval1) = 50 /\ v_min (val_of (at_end (removelast story)) kval1) = 0.
Proof. vm_compute. auto 10. Qed.

(** ** C30 *)
(* Where the document account of [signer] says "signed". *)
Definition signed_document (e : env) (w : world) (cf : config) (signer : pubkey) : Prop :=
  exists rest, raw_bytes e (dat (get w (e_duna e signer (cfg_duna cf)))) = 1 :: rest.
Theorem C30_duna_signed e cx c w w' ck k d' : env_ok e -> reachable e w -> run e cx c w = Ok w' ->
  stake_of e w ck k = None -> stake_of e w' ck k = Some d' ->
  exists cf signer, config_at e w ck cf /\ signed_document e w cf signer /\
    match c with
    | CInitializeValidatorStake a => k = iv_stake a /\ own (get w (iv_vote a)) = e_votep e /\
        dat (get w (iv_vote a)) = DVote signer /\ authority d' = signer
    | CInitializeSolStakerStake a => k = is_stake a /\ exists vw, c_view cx = Some vw /\ vw_withdrawer vw = signer
    | _ => False
    end.
Proof.
  intros OK R RUN S1 S2. pose proof (i_sane _ _ (inv_reachable _ _ OK R)) as S. apply run_ok in RUN as (_ & D & _).
  assert (forall b, head b = Some 1 -> exists rest, b = 1 :: rest) as HD.
  { intros [|x b]; simpl; intros [= ->]; eauto. }
  destruct (creates c) eqn:C.
  - destruct D; try discriminate C.
    + rewrite (stake_of_created_config _ _ _ _ _ _ _ _ _ _ _ OK S H) in S2. congruence.
    + destruct (stake_of_created_val _ _ _ _ _ OK H) as [(d0 & T1 & _) OT].
      destruct (N.eq_dec k (iv_stake a)) as [->|NE]; [|rewrite OT in S2 by auto; congruence].
      destruct H. assert (ck = iv_config a) as ->.
      { destruct (stake_of_some _ _ _ _ _ S2) as (_ & _ & B2). destruct (stake_of_some _ _ _ _ _ T1) as (_ & _ & B3).
        eapply belongs_unique; eauto. }
      exists c, wd. split; [split; auto|]. split; [rewrite Hdu in Hdb; apply HD; auto|].
      destruct (stake_of_some _ _ _ _ _ S2) as (_ & D2 & _). rewrite Hd, N.eqb_refl in D2. injection D2 as <-. auto.
    + destruct (stake_of_created_sol _ _ _ _ _ OK H) as [(d0 & T1 & _) OT].
      destruct (N.eq_dec k (is_stake a)) as [->|NE]; [|rewrite OT in S2 by auto; congruence].
      destruct H. assert (ck = is_config a) as ->.
      { destruct (stake_of_some _ _ _ _ _ S2) as (_ & _ & B2). destruct (stake_of_some _ _ _ _ _ T1) as (_ & _ & B3).
        eapply belongs_unique; eauto. }
      exists c, (vw_withdrawer vw). split; [split; auto|]. split; [rewrite Hdu in Hdb; apply HD; auto|]. eauto.
  - exfalso. destruct (stake_of_some _ _ _ _ _ S2) as (O2 & D2 & B2).
    pose proof (did_evolves _ _ _ _ _ OK D C) as EV. rewrite (ev_own _ _ _ EV) in O2.
    pose proof (ev_id _ _ _ EV _ O2) as I.
    assert (belongs e ck k (dat (get w k))) as B1.
    { destruct (dat (get w' k)) eqn:E; try contradiction.
      - apply same_id_val in I as (v0 & -> & V). simpl in *. congruence.
      - apply same_id_sol in I as (v0 & -> & V & _). simpl in *. congruence. }
    destruct (belongs_del _ _ _ _ B1) as (d & D1). rewrite (stake_of_intro _ _ _ _ _ O2 D1 B1) in S1. discriminate.
Qed.
Print Assumptions C30_duna_signed.
Example C30_case : let l := firstn 2 story in
  reachable denv (at_end l) /\ runs (l ++ [init_val vote2 dave]) = true /\
  stake_of denv (at_end l) kcfg kval2 = None /\
  stake_of denv (at_end (l ++ [init_val vote2 dave])) kcfg kval2 = Some (Del 0 0 0 dave vote2 0 0) /\
  (* somebody else's document does not do *)
  runs (l ++ [init_val vote2 bob]) = false.
Proof. split; [apply at_end_reachable; vm_compute; reflexivity|]. vm_compute. auto. Qed.

(** ** C32 *)
(* What the vote account of a validator stake says. *)
Definition withdrawer_is (e : env) (w : world) (vt x : pubkey) : Prop :=
  own (get w vt) = e_votep e /\ dat (get w vt) = DVote x.
Theorem C32_validator_created e cx c w w' k v' : env_ok e -> reachable e w -> run e cx c w = Ok w' ->
  (forall v, ~ val_at e w k v) -> val_at e w' k v' ->
  withdrawer_is e w (vote (v_del v')) (authority (v_del v')) /\ exists a, c = CInitializeValidatorStake a.
Proof.
  intros OK R RUN N1 [O2 D2]. pose proof (i_sane _ _ (inv_reachable _ _ OK R)) as S. apply run_ok in RUN as (_ & D & _).
  destruct (creates c) eqn:C.
  - destruct D; try discriminate C.
    + exfalso. destruct H. rewrite Hd in D2. destruct (N.eqb_spec (ic_config a) k) as [<-|]; [congruence|].
      rewrite Ho in O2. destruct (N.eqb_spec (ic_vault_pda a) k) as [<-|]; [congruence|]. eapply N1; split; eauto.
    + destruct H. rewrite Hd in D2. destruct (N.eqb_spec (iv_stake a) k) as [E|NE].
      * injection D2 as <-. split; [split; auto|eauto].
      * exfalso. rewrite Ho, (proj2 (N.eqb_neq _ _) NE) in O2. eapply N1; split; eauto.
    + exfalso. destruct H. rewrite Hd in D2. rewrite Ho in O2.
      destruct (N.eqb_spec (is_val a) k) as [<-|]; [eapply N1; split; eauto|].
      destruct (N.eqb_spec (is_stake a) k) as [<-|]; [congruence|]. eapply N1; split; eauto.
  - exfalso. pose proof (did_evolves _ _ _ _ _ OK D C) as EV. rewrite (ev_own _ _ _ EV) in O2.
    pose proof (ev_id _ _ _ EV _ O2) as I. rewrite D2 in I. apply same_id_val in I as (v & V & _).
    eapply N1. split; eauto.
Qed.
Print Assumptions C32_validator_created.
Theorem C32_authority_changes e cx c w w' k v v' : env_ok e -> reachable e w -> run e cx c w = Ok w' ->
  val_at e w k v -> val_at e w' k v' -> authority (v_del v') <> authority (v_del v) ->
  withdrawer_is e w (vote (v_del v)) (authority (v_del v')) /\ exists a, c = CValidatorSyncAuthority a.
Proof.
  intros OK R RUN [O1 D1] [O2 D2] NE. pose proof (i_sane _ _ (inv_reachable _ _ OK R)) as S.
  apply run_ok in RUN as (_ & D & _).
  assert (terms (dat (get w' k)) <> terms (dat (get w k))) as CH by (rewrite D1, D2; simpl; congruence).
  destruct (governs c) eqn:G.
  - destruct D; try discriminate G.
    + destruct H. subst w'. exfalso. wsi D2. destruct (N.eqb_spec (sa_account a) k) as [<-|]; congruence.
    + destruct H. subst w'. exfalso. wsi D2. destruct (N.eqb_spec (uc_config a) k) as [<-|]; congruence.
    + exfalso. destruct (gov_overridden _ _ _ _ _ _ H) as [GO (v1 & v2 & V1 & V2 & _ & AU)].
      destruct (N.eq_dec k (ov_stake a)) as [->|NK]; [congruence|apply CH, GO; auto].
    + destruct H. subst w'. wsi D2. destruct (N.eqb_spec (sy_stake a) k) as [E|]; [|congruence].
      rewrite <- E in *. rewrite D1 in Hv, D2. injection Hv as <-. injection D2 as <-. simpl.
      assert (vote (v_del v) = sy_vote a) as ->.
      { destruct (sane_val _ _ S (sy_stake a) v (conj O1 D1)) as (ck & c2 & K & _). rewrite Hk in K.
        apply (ok_val_inj _ OK) in K as [K _]. auto. }
      split; [split; auto|eauto].
  - exfalso. apply CH. destruct (creates c) eqn:C; [|eapply gframe_did; eauto].
    eapply gov_created; eauto. now rewrite D1.
Qed.
Print Assumptions C32_authority_changes.
(* The sync writes that authority and nothing else. *)
Theorem C32_sync_changes_nothing_else e cx a w w' : run e cx (CValidatorSyncAuthority a) w = Ok w' ->
  exists v x, val_at e w (sy_stake a) v /\ withdrawer_is e w (sy_vote a) x /\
    get w' (sy_stake a) = Acct (lam (get w (sy_stake a))) (own (get w (sy_stake a)))
      (DVal (VStake (Del (staked (v_del v)) (effective (v_del v)) (cooldown (v_del v)) x (vote (v_del v))
                         (last_holder (v_del v)) (last_stake (v_del v))) (v_total v) (v_min v))) /\
    forall k, k <> sy_stake a -> get w' k = get w k.
Proof.
  intros RUN. apply run_ok in RUN as (_ & D & _). inversion D as [| | | | | | | | | | | | | | |? H]; subst. destruct H.
  exists v, wd. split; [split; auto|]. split; [split; auto|]. subst w'. split.
  - apply account_ext; ws; auto. rewrite N.eqb_refl, Hv. reflexivity.
  - intros k NE. apply account_ext; ws; auto. destruct (N.eqb_spec (sy_stake a) k); [congruence|auto].
Qed.
Print Assumptions C32_sync_changes_nothing_else.
Example C32_case : let l := firstn 18 story in
  reachable denv (at_end l) /\ runs (l ++ [sync_auth vote1]) = true /\
  authority (v_del (val_of (at_end l) kval1)) = alice /\
  authority (v_del (val_of (at_end (l ++ [sync_auth vote1])) kval1)) = dave /\
  dat (get (at_end l) vote1) = DVote dave.
Proof. split; [apply at_end_reachable; vm_compute; reflexivity|]. vm_compute. auto. Qed.

(** ** C34 *)
(* The config an instruction names is its account number [config_index]. *)
Definition config_index (i : instruction) : nat :=
  match i with IHarvestSolStakerRewards => 1%nat | _ => 0%nat end.
Lemma call_config_key e ks i c : accounts_of e ks i = Ok c -> nth (config_index i) ks 0 = call_config c.
Proof. destruct i; simpl; intros H; apply require_bind_ok in H as [_ H]; injection H as <-; reflexivity. Qed.
Lemma pstep_dat_other e ck w w' ck' k d : env_ok e -> pstep e ck w w' -> ck' <> ck ->
  stake_of e w ck' k = Some d -> dat (get w' k) = dat (get w k).
Proof.
  intros OK P NE S. destruct (stake_of_some _ _ _ _ _ S) as (O & D & B).
  assert (forall c, dat (get w ck) = DConfig c -> k <> ck) as NC by (intros c E ->; rewrite E in B; destruct B).
  destruct P; eauto.
  - apply Hoth; eauto. intros ->. rewrite (stake_of_other _ _ _ _ _ _ OK Hs NE) in S. discriminate.
  - destruct Hf as [_ F]. auto.
Qed.
Lemma isolated_run e cx c w w' ck : env_ok e -> reachable e w -> run e cx c w = Ok w' -> ck <> call_config c ->
  (forall k, stake_of e w' ck k = stake_of e w ck k) /\
  (forall k d, stake_of e w ck k = Some d -> dat (get w' k) = dat (get w k)) /\
  (forall cf, config_at e w' ck cf <-> config_at e w ck cf) /\
  (forall cf, config_at e w ck cf -> lam (get w ck) <= lam (get w' ck)).
Proof.
  intros OK R RUN NE.
  pose proof (i_sane _ _ (inv_reachable _ _ OK R)) as S. apply run_ok in RUN as (_ & D & _).
  assert (forall cf, config_at e w ck cf -> lam (get w ck) <= lam (get w' ck)) as LM.
  { intros cf C. destruct (N.le_gt_cases (lam (get w ck)) (lam (get w' ck))) as [|L]; [auto|exfalso].
    destruct (flow_did _ _ _ _ _ OK S D ck) as [_ F]. destruct (F L) as [F1|[F1|F1]]; [auto| |].
    - destruct (sane_cfg _ _ S _ _ C) as [NP _]. apply NP. rewrite F1. unfold pda. eauto 10.
    - destruct C as [C _]. pose proof (ok_ids _ OK) as ND. rewrite C in F1. rewrite F1 in ND. apply NoDup_cons in ND as [_ ND].
      apply NoDup_cons in ND as [NI _]. apply NI. right. left. }
  destruct (creates c) eqn:C.
  - destruct D; try discriminate C; simpl in NE.
    + split; [intros k; eapply stake_of_created_config; eauto|].
      destruct (config_created_facts _ _ _ _ _ _ _ _ _ _ _ OK S H) as (bs & R1 & _). destruct H.
      split; [|split; [|auto]].
      * intros k d T. apply stake_of_some in T as (_ & T & _). rewrite Hd.
        destruct (N.eqb_spec (ic_config a) k) as [E|]; [|auto]. rewrite <- E, R1 in T. discriminate.
      * intros cf. unfold config_at. rewrite Ho, Hd. destruct (N.eqb_spec (ic_config a) ck); [congruence|].
        destruct (N.eqb_spec (ic_vault_pda a) ck) as [E|]; [|tauto]. rewrite <- E, Hve. split; intros [_ X]; discriminate.
    + destruct (stake_of_created_val _ _ _ _ _ OK H) as [(d0 & T1 & _ & _ & N0) OT]. split; [|split; [|split; [|auto]]].
      * intros k. destruct (N.eq_dec k (iv_stake a)) as [->|NK]; [|apply OT; auto].
        rewrite (stake_of_other _ _ _ ck _ _ OK T1 NE). destruct (stake_of e w ck (iv_stake a)) eqn:E; auto.
        apply stake_of_some in E as (E & _). contradiction.
      * intros k d T. apply stake_of_some in T as (T & _). destruct H. rewrite Hd.
        destruct (N.eqb_spec (iv_stake a) k) as [E|]; [|auto]. rewrite <- E in T. contradiction.
      * intros cf. destruct H. unfold config_at. rewrite Ho, Hd.
        destruct (N.eqb_spec (iv_stake a) ck) as [E|]; [|tauto]. rewrite <- E, Hsd. split; intros [_ X]; discriminate.
    + destruct (stake_of_created_sol _ _ _ _ _ OK H) as [(d0 & T1 & _ & _ & N0) OT]. split; [|split; [|split; [|auto]]].
      * intros k. destruct (N.eq_dec k (is_stake a)) as [->|NK]; [|apply OT; auto].
        rewrite (stake_of_other _ _ _ ck _ _ OK T1 NE). destruct (stake_of e w ck (is_stake a)) eqn:E; auto.
        apply stake_of_some in E as (E & _). contradiction.
      * intros k d T. destruct (stake_of_some _ _ _ _ _ T) as (T2 & _). destruct H. rewrite Hd.
        destruct (N.eqb_spec (is_val a) k) as [E|].
        { exfalso. rewrite <- E in T. destruct (sane_val_belongs _ _ _ _ _ _ OK S Hvo Hv Hvk) as [_ B].
          rewrite (stake_of_other _ _ _ _ _ _ OK B NE) in T. discriminate. }
        destruct (N.eqb_spec (is_stake a) k) as [E|]; [|auto]. rewrite <- E in T2. contradiction.
      * intros cf. destruct H. unfold config_at. rewrite Ho, Hd.
        destruct (N.eqb_spec (is_val a) ck) as [E|].
        { rewrite <- E, Hv. destruct (N.eqb_spec (is_stake a) (is_val a)); split; intros [_ X]; discriminate. }
        destruct (N.eqb_spec (is_stake a) ck) as [E|]; [|tauto]. rewrite <- E, Hsd. split; intros [_ X]; discriminate.
  - pose proof (did_psteps _ _ _ _ _ OK S D C) as P.
    cut ((forall k, stake_of e w' ck k = stake_of e w ck k) /\
         (forall k d, stake_of e w ck k = Some d -> dat (get w' k) = dat (get w k)) /\
         (forall cf, config_at e w' ck cf <-> config_at e w ck cf)); [tauto|].
    clear D LM S R. induction P as [|w w1 w2 P PS (I1 & I2 & I3)]; [tauto|].
    pose proof (fun k => pstep_stake_of_other _ _ _ _ OK P ck k NE) as T. split; [|split].
    + intros k. now rewrite I1.
    + intros k d D. rewrite (I2 k d); [|now rewrite T]. eapply pstep_dat_other; eauto.
    + intros cf. rewrite I3. eapply pstep_config_other; eauto.
Qed.
Theorem C34_configs_isolated e cx ks data i w w' ck : env_ok e -> reachable e w ->
  unpack data = Ok i -> process_instruction e cx ks data w = Ok w' -> ck <> nth (config_index i) ks 0 ->
  (forall k, stake_of e w' ck k = stake_of e w ck k) /\
  (forall k d, stake_of e w ck k = Some d -> dat (get w' k) = dat (get w k)) /\
  (forall cf, config_at e w' ck cf <-> config_at e w ck cf) /\
  (forall cf, config_at e w ck cf -> lam (get w ck) <= lam (get w' ck)).
Proof.
  intros OK R U P NE. unfold process_instruction in P. rewrite U in P. simpl in P.
  apply bind_ok in P as (c & A & RUN). rewrite (call_config_key _ _ _ _ A) in NE. eapply isolated_run; eauto.
Qed.
Print Assumptions C34_configs_isolated.
(* two configs, both with a stake of the same validator *)
Definition two_configs : list act := firstn 7 story ++
  [ Call (cx [] 0 None 0)
      (CInitializeConfig (InitConfigA kcfg2 kmint (e_vault denv kcfg2) kvtok2 (e_holder denv (e_vault denv kcfg2)))
         slasher gov 10 20 30 docs);
    Call (cx [] 0 None 0)
      (CInitializeValidatorStake (InitValA kcfg2 (e_duna denv alice docs) (e_val denv vote1 kcfg2) vote1)) ].
Example C34_case : let w := at_end two_configs in
  let ks := [kcfg; kvhr; kval1; alice] in
  reachable denv w /\ runs two_configs = true /\ unpack [4] = Ok IHarvestValidatorRewards /\
  match process_instruction denv (cx [] 0 None 0) ks [4] w with
  | Ok w' => lam (get w' kcfg) < lam (get w kcfg) /\ get w' kval1 <> get w kval1
  | _ => False
  end /\ kcfg2 <> nth (config_index IHarvestValidatorRewards) ks 0 /\
  (exists d, stake_of denv w kcfg2 (e_val denv vote1 kcfg2) = Some d) /\
  cfg_bps (cfg_of w kcfg2) = 20 /\
  (* the other config's stake account is refused *)
  forall w', process_instruction denv (cx [] 0 None 0) [kcfg; kvhr; e_val denv vote1 kcfg2; alice] [4] w <> Ok w'.
Proof.
  split; [apply at_end_reachable; vm_compute; reflexivity|]. split; [vm_compute; reflexivity|]. split; [reflexivity|].
  split; [vm_compute; split; [reflexivity|discriminate]|]. split; [vm_compute; discriminate|].
  split; [exists (v_del (val_of (at_end two_configs) (e_val denv vote1 kcfg2))); vm_compute; reflexivity|].
  split; [vm_compute; reflexivity|]. intros w'.
  assert (exists x, process_instruction denv (cx [] 0 None 0) [kcfg; kvhr; e_val denv vote1 kcfg2; alice] [4]
                     (at_end two_configs) = Err x) as [x ->]; [exists InvalidSeeds; vm_compute; reflexivity|discriminate].
Qed.

(** ** C40 *)
Definition permissionless (c : call) : bool :=
  match c with
  | CInitializeConfig _ _ _ _ _ _ _ | CInitializeValidatorStake _ | CInitializeSolStakerStake _
  | CValidatorStakeTokens _ _ | CSolStakerStakeTokens _ _
  | CHarvestHolderRewards _ | CHarvestValidatorRewards _ | CHarvestSolStakerRewards _
  | CValidatorSyncAuthority _ => true
  | _ => false
  end.
Theorem C40_permissionless_harmless e cx c w w' : env_ok e -> reachable e w -> run e cx c w = Ok w' ->
  permissionless c = true ->
  (forall ck k d, stake_of e w ck k = Some d -> exists d', stake_of e w' ck k = Some d' /\
     staked d <= staked d' /\ cooldown d' = cooldown d) /\
  (forall k, lam (get w k) < lam (get w' k) ->
     (exists sk d, stake_of e w (call_config c) sk = Some d /\ authority d = k) \/
     (exists a, c = CHarvestSolStakerRewards a /\ hs_keeper a = Some k) \/
     k = call_config c \/ k = e_vault e (call_config c)) /\
  (forall k, lam (get w' k) < lam (get w k) ->
     k = call_config c \/ k = e_vault e (call_config c) \/ own (get w k) = e_rewards e).
Proof.
  intros OK R RUN PL. pose proof RUN as RUN'. apply run_ok in RUN' as (_ & D & _).
  pose proof (i_sane _ _ (inv_reachable _ _ OK R)) as S. split.
  - intros ck k d T. destruct (C12_stake_stays _ _ _ _ _ _ _ _ OK R RUN T) as (d' & T').
    exists d'. split; [auto|]. split.
    + destruct (N.le_gt_cases (staked d) (staked d')) as [|L]; [auto|].
      pose proof (C12_stake_reduction _ _ _ _ _ _ _ _ _ OK R RUN T T' L) as X. destruct c; try discriminate PL; destruct X.
    + destruct (stake_of_some _ _ _ _ _ T) as (O1 & D1 & B1). destruct (stake_of_some _ _ _ _ _ T') as (O2 & D2 & B2).
      destruct (quiet c) eqn:Q.
      { destruct (sframe_quiet _ _ _ _ _ OK D Q) as [_ F]. specialize (F _ O1).
        rewrite (stk_del _ _ D1), (stk_del _ _ D2) in F. injection F as _ F. auto. }
      assert (forall a n, staked_any e cx a n w w' -> cooldown d' = cooldown d) as ST.
      { intros a n H. pose proof (staked_net _ _ _ _ _ _ OK H) as C. destruct H.
        destruct (chained_stake _ _ _ _ _ _ _ _ C Hso Hbel) as (cq & dq & hq & rq & srq & hrq & RD & T1 & T2 & OT); [reflexivity|].
        destruct (N.eq_dec k (st_stake a)) as [->|NE]; [|rewrite OT in T' by auto; congruence].
        pose proof (belongs_unique _ _ _ _ _ OK Hbel B1) as <-. rewrite T in T1. rewrite T' in T2.
        injection T1 as <-. injection T2 as ->. reflexivity. }
      destruct D; try discriminate Q; try discriminate PL; eauto.
      * rewrite (stake_of_created_config _ _ _ _ _ _ _ _ _ _ _ OK S H) in T'. congruence.
      * destruct (stake_of_created_val _ _ _ _ _ OK H) as [(d0 & _ & _ & _ & N0) OT].
        destruct (N.eq_dec k (iv_stake a)) as [->|NE]; [contradiction|]. rewrite OT in T' by auto. congruence.
      * destruct (stake_of_created_sol _ _ _ _ _ OK H) as [(d0 & _ & _ & _ & N0) OT].
        destruct (N.eq_dec k (is_stake a)) as [->|NE]; [contradiction|]. rewrite OT in T' by auto. congruence.
  - pose proof (flow_did _ _ _ _ _ OK S D) as F. split; intros k L; destruct (F k) as [F1 F2]; [|apply F2; auto].
    destruct (F1 L) as [X|[X|X]]; [left; exact X| |auto]. right; left.
    destruct c; try discriminate X. exists a. auto.
Qed.
Print Assumptions C40_permissionless_harmless.
(* carol harvests bob's stake as keeper: bob and carol are paid, from the config *)
Example C40_case : let l := firstn 10 story in let l' := firstn 11 story in
  reachable denv (at_end l) /\ runs l' = true /\
  lam (get (at_end l') carol) = lam (get (at_end l) carol) + 100 /\
  lam (get (at_end l) bob) < lam (get (at_end l') bob) /\
  lam (get (at_end l') kcfg) < lam (get (at_end l) kcfg) /\
  staked (s_del (sol_of (at_end l') ksol1)) = 2000.
Proof. split; [apply at_end_reachable; vm_compute; reflexivity|]. vm_compute. auto. Qed.

(** ** C41 *)
Theorem C41_move_exact e cx a n w w' : env_ok e -> reachable e w -> run e cx (CSolStakerMoveTokens a n) w = Ok w' ->
  exists s t s' t',
    sol_at e w (mv_source a) s /\ sol_at e w (mv_dest a) t /\
    sol_at e w' (mv_source a) s' /\ sol_at e w' (mv_dest a) t' /\
    mv_source a <> mv_dest a /\
    mv_source a = e_sol e (s_native s) (mv_config a) /\ mv_dest a = e_sol e (s_native t) (mv_config a) /\
    authority (s_del s) = mv_authority a /\ authority (s_del t) = mv_authority a /\ signed cx (mv_authority a) = true /\
    staked (s_del s') + n = staked (s_del s) /\ staked (s_del t') = staked (s_del t) + n /\
    cooldown (s_del s') = cooldown (s_del s) /\
    cooldown (s_del t') = N.max (cooldown (s_del s)) (cooldown (s_del t)) /\
    (forall x x', (x, x') = (s, s') \/ (x, x') = (t, t') ->
       vote (s_del x') = vote (s_del x) /\ authority (s_del x') = authority (s_del x) /\
       s_lamports x' = s_lamports x /\ s_native x' = s_native x) /\
    (forall ck k, k <> mv_source a -> k <> mv_dest a -> stake_of e w' ck k = stake_of e w ck k).
Proof.
  intros OK R RUN. apply run_ok in RUN as (_ & D & _). inversion D as [| | | | | | | | | | | | |? ? H| |]; subst.
  pose proof (moved_net_ok _ _ _ _ _ _ H) as M. pose proof (moved_stake _ _ _ _ _ _ _ M) as OT. destruct H.
  destruct M as [s1 t1 ds dt c']. rewrite Hs0 in Hs1. injection Hs1 as <-.
  pose proof (harvested_sk _ _ _ _ _ _ _ _ _ H1) as N1. pose proof (harvested_sk _ _ _ _ _ _ _ _ _ H2) as N2.
  assert (s_native t0 = s_native t1) as NT.
  { destruct (harvested_net _ _ _ _ _ _ _ _ _ H1) as (cq & dq & hq & rpt & sr & hr & RD & _ & _ & O1 & _ & C1 & S1 & X1).
    rewrite X1 in Ht0 by congruence. congruence. }
  assert (staked ds = staked (s_del s0) - n /\ cooldown ds = cooldown (s_del s0) /\
          authority ds = authority (s_del s0) /\ vote ds = vote (s_del s0)) as (DS1 & DS2 & DS3 & DS4)
    by (rewrite Hds; auto).
  assert (staked dt = staked (s_del t1) + n /\ cooldown dt = N.max (cooldown (s_del s0)) (cooldown (s_del t1)) /\
          authority dt = authority (s_del t1) /\ vote dt = vote (s_del t1)) as (DT1 & DT2 & DT3 & DT4)
    by (rewrite Hdt; auto).
  exists s0, t1, (set_s_del s0 ds), (set_s_del t1 dt). unfold sol_at. rewrite !Hown. cbn [set_s_del s_del s_lamports s_native].
  do 14 (split; [first [lia | congruence | auto]|]). split.
  - intros x x' [E|E]; injection E as -> ->; simpl; auto.
  - intros ck k K1 K2. eapply OT; eauto.
Qed.
Print Assumptions C41_move_exact.
Example C41_case : let l := firstn 13 story in let l' := firstn 14 story in
  reachable denv (at_end l) /\ runs l' = true /\ nth 13 story (Pay 0 0 0) = move nat1 nat2 bob 800 /\
  staked (s_del (sol_of (at_end l') ksol1)) + 800 = staked (s_del (sol_of (at_end l) ksol1)) /\
  staked (s_del (sol_of (at_end l') ksol2)) = staked (s_del (sol_of (at_end l) ksol2)) + 800 /\
  (* a move after the source's cooldown has started carries the cooldown along *)
  (let m := l' ++ [unstake ksol2 bob btok 400 5000 (5 * 10 ^ 18); move nat2 nat1 bob 100] in
   runs m = true /\ cooldown (s_del (sol_of (at_end m) ksol1)) = 6000) /\
  runs (l ++ [move nat1 nat1 bob 800]) = false.
Proof. split; [apply at_end_reachable; vm_compute; reflexivity|]. vm_compute. auto 10. Qed.
