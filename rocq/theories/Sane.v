(** Invariant, part 1: kinds, addresses and lamports of the program's accounts. *)
From Verif Require Import Base Types Layout Instr Math External Processor Runtime History Spec
  WorldLemmas Effects Handlers Evolve.

Record sane (e : env) (w : world) : Prop := {
  sane_cfg : forall k c, config_at e w k c ->
    ~ pda e k /\ cfg_bps c <= MAX_BPS /\ cfg_bump c = e_bump e k /\
    (own (get w (e_vault e k)) = e_prog e \/ own (get w (e_vault e k)) = 0) /\
    dat (get w (e_vault e k)) = DRaw [];
  sane_val : forall k v, val_at e w k v ->
    exists ck c, k = e_val e (vote (v_del v)) ck /\ config_at e w ck c;
  sane_sol : forall k s, sol_at e w k s ->
    exists ck c, k = e_sol e (s_native s) ck /\ config_at e w ck c;
  sane_raw : forall k b, own (get w k) = e_prog e -> dat (get w k) = DRaw b ->
    zeroed (DRaw b) /\ (pda e k -> b = [] /\ exists ck, k = e_vault e ck);
  sane_kind : forall k, own (get w k) = e_prog e ->
    (exists b, dat (get w k) = DRaw b) \/ (exists c, dat (get w k) = DConfig c) \/
    (exists v, dat (get w k) = DVal v) \/ (exists s, dat (get w k) = DSol s);
  sane_pda : forall k, pda e k -> own (get w k) <> e_prog e -> own (get w k) = 0 /\ dat (get w k) = DRaw [];
}.

Lemma same_id_config d c' : same_id d (DConfig c') -> exists c, d = DConfig c /\
  cfg_vault c' = cfg_vault c /\ cfg_bump c' = cfg_bump c /\ cfg_duna c' = cfg_duna c /\
  (cfg_bps c <= MAX_BPS -> cfg_bps c' <= MAX_BPS).
Proof. destruct d; simpl; try discriminate. intros H. exists c. auto. Qed.
Lemma same_id_config_l c d' : same_id (DConfig c) d' -> exists c', d' = DConfig c' /\
  cfg_vault c' = cfg_vault c /\ cfg_bump c' = cfg_bump c /\ cfg_duna c' = cfg_duna c /\
  (cfg_bps c <= MAX_BPS -> cfg_bps c' <= MAX_BPS).
Proof. destruct d'; simpl; try discriminate. intros H. exists c0. auto. Qed.
Lemma same_id_val d v' : same_id d (DVal v') -> exists v, d = DVal v /\ vote (v_del v') = vote (v_del v).
Proof. destruct d; simpl; try discriminate. eauto. Qed.
Lemma same_id_val_l v d' : same_id (DVal v) d' -> exists v', d' = DVal v' /\ vote (v_del v') = vote (v_del v).
Proof. destruct d'; simpl; try discriminate. eauto. Qed.
Lemma same_id_sol d s' : same_id d (DSol s') -> exists s, d = DSol s /\ s_native s' = s_native s /\
  authority (s_del s') = authority (s_del s).
Proof. destruct d; simpl; try discriminate. intros []. eauto. Qed.
Lemma same_id_sol_l s d' : same_id (DSol s) d' -> exists s', d' = DSol s' /\ s_native s' = s_native s /\
  authority (s_del s') = authority (s_del s).
Proof. destruct d'; simpl; try discriminate. intros []. eauto. Qed.
Lemma same_id_raw d b : same_id d (DRaw b) -> d = DRaw b.
Proof. destruct d; simpl; congruence. Qed.

Lemma evolves_config e w w' k c : evolves e w w' -> config_at e w k c ->
  exists c', config_at e w' k c' /\
    cfg_vault c' = cfg_vault c /\ cfg_bump c' = cfg_bump c /\ cfg_duna c' = cfg_duna c.
Proof.
  intros [A B C] [O D]. pose proof (B k O) as S. rewrite D in S.
  apply same_id_config_l in S as (c' & D' & ? & ? & ? & ?). exists c'. unfold config_at. rewrite A. auto.
Qed.

Lemma sane_evolves e w w' : sane e w -> evolves e w w' -> sane e w'.
Proof.
  intros S EV. pose proof EV as [A B R]. split.
  - intros k c [O D]. rewrite A in O. pose proof (B k O) as I. rewrite D in I.
    apply same_id_config in I as (c0 & D0 & V & U & DU & BP).
    destruct (sane_cfg _ _ S k c0 (conj O D0)) as (P & BPS & BU & VO & VD).
    repeat split; auto; [congruence|rewrite A; auto].
  - intros k v [O D]. rewrite A in O. pose proof (B k O) as I. rewrite D in I.
    apply same_id_val in I as (v0 & D0 & V).
    destruct (sane_val _ _ S k v0 (conj O D0)) as (ck & c & K & C).
    destruct (evolves_config _ _ _ _ _ EV C) as (c' & C' & _). exists ck, c'. rewrite V. auto.
  - intros k s [O D]. rewrite A in O. pose proof (B k O) as I. rewrite D in I.
    apply same_id_sol in I as (s0 & D0 & V & _).
    destruct (sane_sol _ _ S k s0 (conj O D0)) as (ck & c & K & C).
    destruct (evolves_config _ _ _ _ _ EV C) as (c' & C' & _). exists ck, c'. rewrite V. auto.
  - intros k b O D. rewrite A in O. pose proof (B k O) as I. rewrite D in I. apply same_id_raw in I.
    apply (sane_raw _ _ S k b O I).
  - intros k O. rewrite A in O. pose proof (B k O) as I.
    destruct (sane_kind _ _ S k O) as [[b D]|[[c D]|[[v D]|[s D]]]]; rewrite D in I.
    + left. exists b. apply R. auto.
    + apply same_id_config_l in I as (? & ? & _). eauto.
    + apply same_id_val_l in I as (? & ? & _). eauto.
    + apply same_id_sol_l in I as (? & ? & _). eauto.
  - intros k P O. rewrite A in *. destruct (sane_pda _ _ S k P O) as [O' D']. auto.
Qed.

(** ** Instructions that create nothing *)
Definition creates (c : call) : bool :=
  match c with
  | CInitializeConfig _ _ _ _ _ _ _ | CInitializeValidatorStake _ | CInitializeSolStakerStake _ => true
  | _ => false
  end.

Lemma del_of_harvest_put e w ck vhr auth va sk keeper w1 d y :
  harvested e w ck vhr auth va sk keeper w1 -> del_of (dat (get w1 sk)) = Ok d ->
  vote y = vote d -> authority y = authority d -> evolves e w (put_del w1 sk y).
Proof.
  intros H D V A. eapply evolves_trans; [eapply evolves_harvest; eauto|].
  eapply evolves_put_del; eauto.
Qed.

Lemma evolves_staked e cx a n w w' : env_ok e -> staked_ok e cx a n w w' -> evolves e w w'.
Proof.
  intros OK [].
  apply evolves_trans with w2; [rewrite H2; eapply del_of_harvest_put; try eassumption; reflexivity|].
  eapply evolves_trans; [eapply evolves_resync; eauto|].
  eapply evolves_trans; [eapply evolves_transferred; eauto|].
  eapply evolves_deposited; eauto.
Qed.
Lemma evolves_unstaked e cx a n w w' : env_ok e -> unstaked_ok e cx a n w w' -> evolves e w w'.
Proof.
  intros OK [].
  apply evolves_trans with w2; [rewrite H2; eapply del_of_harvest_put; try eassumption; reflexivity|].
  eapply evolves_trans; [eapply evolves_resync; eauto|].
  eapply evolves_trans; [eapply evolves_withdrawn; eauto|].
  eapply evolves_transferred; eauto.
Qed.
Lemma evolves_slashed e cx a n w w' : env_ok e -> slashed_ok e cx a n w w' -> evolves e w w'.
Proof.
  intros OK [].
  apply evolves_trans with w2; [rewrite H2; eapply del_of_harvest_put; try eassumption; reflexivity|].
  eapply evolves_trans; [|eapply evolves_resync; eauto].
  destruct H3 as [[_ ->]|(_ & _ & H3)]; [apply evolves_refl|].
  eapply evolves_burned; eauto.
Qed.
Lemma evolves_moved e cx a n w w' : moved_ok e cx a n w w' -> evolves e w w'.
Proof.
  intros [].
  apply evolves_trans with w1; [eapply evolves_harvest; eauto|].
  apply evolves_trans with w2; [eapply evolves_harvest; eauto|].
  apply evolves_trans with w3.
  { subst w3. apply (evolves_put_del e w2 (mv_source a) (s_del s)); try reflexivity. rewrite Hs. reflexivity. }
  apply evolves_trans with w4.
  { subst w4. apply (evolves_put_del e w3 (mv_dest a) (s_del t)); try reflexivity. subst w3.
    ws. destruct (N.eqb_spec (mv_source a) (mv_dest a)); [congruence|]. rewrite Ht. reflexivity. }
  apply evolves_trans with w5; eapply evolves_resync; eauto.
Qed.
Lemma evolves_revalidated e w ck vhr vs vk vauth f w' :
  revalidated e w ck vhr vs vk vauth f w' -> evolves e w w'.
Proof.
  intros []. subst w2.
  eapply evolves_trans; [eapply evolves_harvest; eauto|].
  eapply evolves_trans; [|eapply evolves_resync; eauto].
  apply evolves_setd; rewrite Hv; [reflexivity|discriminate].
Qed.
Lemma evolves_left e w a s w' : left_ok e w a s w' -> evolves e w w'.
Proof. intros []; [eapply evolves_revalidated; eauto|subst; apply evolves_refl]. Qed.
Lemma evolves_joined e w a cv cs w' cv' cs' : joined_ok e w a cv cs w' cv' cs' -> evolves e w w'.
Proof. intros []; [eapply evolves_revalidated; eauto|subst; apply evolves_refl|subst; apply evolves_refl]. Qed.
Lemma evolves_harvested_sol e cx a w w' : harvested_sol_ok e cx a w w' -> evolves e w w'.
Proof.
  intros [].
  - eapply evolves_harvest; eauto.
  - eapply evolves_trans; [eapply evolves_harvest; eauto|].
    eapply evolves_trans; [eapply evolves_left; eauto|].
    eapply evolves_trans; [eapply evolves_joined; eauto|].
    eapply evolves_trans; [|eapply evolves_resync; eauto]. subst w4.
    apply evolves_setd; rewrite Hs3; [split; reflexivity|discriminate].
Qed.
Lemma evolves_overridden e cx a n w w' : overridden_ok e cx a n w w' -> evolves e w w'.
Proof.
  intros []. subst w2.
  eapply evolves_trans; [eapply evolves_harvest; eauto|].
  eapply evolves_trans; [|eapply evolves_resync; eauto].
  apply evolves_setd; rewrite Hv; [reflexivity|discriminate].
Qed.
Lemma evolves_held e cx a w w' : env_ok e -> held_ok e cx a w w' -> evolves e w w'.
Proof.
  intros OK []. 
  eapply evolves_trans; [eapply evolves_synced; eauto|].
  eapply evolves_trans; [eapply evolves_rharvested; eauto|].
  apply evolves_trans with w3.
  - subst w3. apply evolves_same; intros k; now ws.
  - subst w'. apply evolves_setd.
    + subst w3. ws. rewrite Hc. simpl. auto.
    + subst w3. ws. rewrite Hc. discriminate.
Qed.

Lemma did_evolves e cx w w' c : env_ok e -> did e cx w w' c -> creates c = false -> evolves e w w'.
Proof.
  intros OK [] NC; try discriminate NC.
  - destruct H. eapply evolves_staked; eauto.
  - eapply evolves_held; eauto.
  - destruct H. eapply evolves_harvest; eauto.
  - destruct H. eapply evolves_slashed; eauto.
  - destruct H. subst w'. apply evolves_setd; rewrite Hc; [destruct t; simpl; auto|discriminate].
  - destruct H. subst w'. apply evolves_setd; rewrite Hc; [|discriminate].
    destruct f; simpl; auto.
  - destruct H. eapply evolves_staked; eauto.
  - eapply evolves_harvested_sol; eauto.
  - eapply evolves_unstaked; eauto.
  - destruct H. eapply evolves_slashed; eauto.
  - eapply evolves_moved; eauto.
  - eapply evolves_overridden; eauto.
  - destruct H. subst w'. apply evolves_setd; rewrite Hv; [reflexivity|discriminate].
Qed.

(** ** Creation *)
Lemma uninit_raw e d : data_len d = CONFIG_LEN -> config_uninitialized e d = true ->
  (exists b, d = DRaw b) \/ (exists c, d = DConfig c) \/ (exists v, d = DVal v) \/ (exists s, d = DSol s) ->
  exists b, d = DRaw b /\ b <> [].
Proof.
  intros L U [[b ->]|[[c ->]|[[v ->]|[s ->]]]].
  - exists b. split; auto. intros ->. discriminate.
  - unfold config_uninitialized in U. apply bool_decide_eq_true in U. simpl in U. discriminate.
  - discriminate.
  - discriminate.
Qed.

Lemma config_created_facts e cx a s au cd b sy du w w' : env_ok e -> sane e w ->
  config_created e cx a s au cd b sy du w w' ->
  exists bs, dat (get w (ic_config a)) = DRaw bs /\ bs <> [] /\ own (get w (ic_config a)) = e_prog e /\
    ~ pda e (ic_config a) /\ ic_config a <> ic_vault_pda a.
Proof.
  intros OK S [].
  assert (ic_config a <> ic_vault_pda a) as NE.
  { intros EE. rewrite EE, Hve in Hlen. discriminate. }
  assert (own (get w (ic_config a)) = e_prog e) as O by (destruct Hco; [auto|congruence]).
  destruct (uninit_raw e _ Hlen Hun (sane_kind _ _ S _ O)) as (bs & D & NB).
  exists bs. repeat split; auto.
  intros P. destruct (sane_raw _ _ S _ _ O D) as [_ X]. apply X in P as [P _]. auto.
Qed.

Lemma sane_config_created e cx a s au cd b sy du w w' : env_ok e -> sane e w ->
  config_created e cx a s au cd b sy du w w' -> sane e w'.
Proof.
  intros OK S H. destruct (config_created_facts _ _ _ _ _ _ _ _ _ _ _ OK S H) as (bs & D & NB & O & NP & NE).
  destruct H.
  assert (forall k c, config_at e w k c -> exists c', config_at e w' k c') as CF.
  { intros k c [O1 D1]. unfold config_at. rewrite Ho, Hd.
    assert (ic_config a <> k) as N1 by (intros EE; rewrite EE in D; congruence).
    rewrite (proj2 (N.eqb_neq _ _) N1), D1. exists c. split; auto.
    destruct (N.eqb_spec (ic_vault_pda a) k); congruence. }
  assert (forall k d, own (get w' k) = e_prog e -> dat (get w' k) = d -> d <> DRaw [] -> k <> ic_config a ->
            own (get w k) = e_prog e /\ dat (get w k) = d) as BK.
  { intros k d O1 D1 ND NK. rewrite Ho in O1. rewrite Hd in D1.
    destruct (N.eqb_spec (ic_config a) k); [congruence|].
    destruct (N.eqb_spec (ic_vault_pda a) k); [congruence|auto]. }
  split.
  - intros k c [O1 D1]. destruct (N.eqb_spec k (ic_config a)) as [->|NK].
    + rewrite Hd, N.eqb_refl in D1. injection D1 as <-. simpl. repeat split; auto.
      * left. rewrite Ho. rewrite <- Hvp, N.eqb_refl. auto.
      * rewrite Hd, <- Hvp. destruct (N.eqb_spec (ic_config a) (ic_vault_pda a)); [congruence|auto].
    + destruct (BK k _ O1 D1) as [O2 D2]; [discriminate|auto|].
      destruct (sane_cfg _ _ S k c (conj O2 D2)) as (P & BPS & BU & VO & VD).
      repeat split; auto.
      * rewrite Ho. destruct (N.eqb_spec (ic_vault_pda a) (e_vault e k)); auto.
      * rewrite Hd. destruct (N.eqb_spec (ic_config a) (e_vault e k)) as [EE|]; auto.
        rewrite <- EE in VD. congruence.
  - intros k v [O1 D1]. destruct (N.eqb_spec k (ic_config a)) as [->|NK].
    { rewrite Hd, N.eqb_refl in D1. discriminate. }
    destruct (BK k _ O1 D1) as [O2 D2]; [discriminate|auto|].
    destruct (sane_val _ _ S k v (conj O2 D2)) as (ck & c & K & C).
    destruct (CF _ _ C) as [c' C']. eauto.
  - intros k v [O1 D1]. destruct (N.eqb_spec k (ic_config a)) as [->|NK].
    { rewrite Hd, N.eqb_refl in D1. discriminate. }
    destruct (BK k _ O1 D1) as [O2 D2]; [discriminate|auto|].
    destruct (sane_sol _ _ S k v (conj O2 D2)) as (ck & c & K & C).
    destruct (CF _ _ C) as [c' C']. eauto.
  - intros k bb O1 D1. rewrite Hd in D1. rewrite Ho in O1.
    destruct (N.eqb_spec (ic_config a) k); [discriminate|].
    destruct (N.eqb_spec (ic_vault_pda a) k) as [E|E].
    + subst k. assert (bb = []) as -> by congruence. split; [exists 0%nat; auto|]. intros _. eauto.
    + apply (sane_raw _ _ S _ _ O1 D1).
  - intros k O1. rewrite Hd. rewrite Ho in O1. destruct (N.eqb_spec (ic_config a) k); [eauto|].
    destruct (N.eqb_spec (ic_vault_pda a) k) as [E|E].
    + subst k. eauto.
    + apply (sane_kind _ _ S _ O1).
  - intros k P O1. rewrite Ho in *. rewrite Hd. destruct (N.eqb_spec (ic_vault_pda a) k); [congruence|].
    destruct (N.eqb_spec (ic_config a) k); [congruence|]. apply (sane_pda _ _ S _ P O1).
Qed.

(** A new stake account at a derived address that held nothing. *)
Lemma sane_created e w w' nk D : env_ok e -> sane e w ->
  own (get w nk) = 0 -> dat (get w nk) = DRaw [] ->
  (forall ck, nk <> e_vault e ck) ->
  (forall k, own (get w' k) = if nk =? k then e_prog e else own (get w k)) ->
  dat (get w' nk) = D ->
  (forall k, k <> nk -> own (get w k) = e_prog e -> same_id (dat (get w k)) (dat (get w' k))) ->
  (forall k b, k <> nk -> dat (get w k) = DRaw b -> dat (get w' k) = DRaw b) ->
  (exists ck c, belongs e ck nk D /\ config_at e w ck c) ->
  sane e w'.
Proof.
  intros OK S O0 D0 NV Ho HD SI RW (ckn & cn & BEL & CN).
  destruct (prog_ids e OK) as (P0 & _).
  assert (forall k c, config_at e w k c -> exists c', config_at e w' k c') as CF.
  { intros k c [O1 D1]. unfold config_at. rewrite Ho.
    assert (k <> nk) as NK by (intros ->; congruence).
    pose proof (SI k NK O1) as I. rewrite D1 in I. apply same_id_config_l in I as (c' & ? & _). exists c'.
    split; auto. destruct (N.eqb_spec nk k); auto. }
  assert (forall k, k <> nk -> own (get w' k) = e_prog e -> own (get w k) = e_prog e) as OB.
  { intros k NK O1. rewrite Ho in O1. destruct (N.eqb_spec nk k); congruence. }
  split.
  - intros k c [O1 D1]. destruct (N.eqb_spec k nk) as [->|NK].
    { exfalso. rewrite HD in D1. rewrite D1 in BEL. exact BEL. }
    pose proof (OB k NK O1) as O2. pose proof (SI k NK O2) as I. rewrite D1 in I.
    apply same_id_config in I as (c0 & D2 & V & U & DU & BP).
    destruct (sane_cfg _ _ S k c0 (conj O2 D2)) as (P & BPS & BU & VO & VD).
    split; [auto|]. split; [auto|]. split; [congruence|]. split.
    + rewrite Ho. destruct (N.eqb_spec nk (e_vault e k)); auto.
    + apply RW; auto.
  - intros k v [O1 D1]. destruct (N.eqb_spec k nk) as [->|NK].
    { rewrite HD in D1. rewrite D1 in BEL. destruct (CF _ _ CN) as [c' C']. exists ckn, c'. auto. }
    pose proof (OB k NK O1) as O2. pose proof (SI k NK O2) as I. rewrite D1 in I.
    apply same_id_val in I as (v0 & D2 & V).
    destruct (sane_val _ _ S k v0 (conj O2 D2)) as (ck & c & K & C).
    destruct (CF _ _ C) as [c' C']. exists ck, c'. rewrite V. auto.
  - intros k v [O1 D1]. destruct (N.eqb_spec k nk) as [->|NK].
    { rewrite HD in D1. rewrite D1 in BEL. destruct (CF _ _ CN) as [c' C']. exists ckn, c'. auto. }
    pose proof (OB k NK O1) as O2. pose proof (SI k NK O2) as I. rewrite D1 in I.
    apply same_id_sol in I as (v0 & D2 & V & _).
    destruct (sane_sol _ _ S k v0 (conj O2 D2)) as (ck & c & K & C).
    destruct (CF _ _ C) as [c' C']. exists ck, c'. rewrite V. auto.
  - intros k b O1 D1. destruct (N.eqb_spec k nk) as [->|NK].
    { exfalso. rewrite HD in D1. rewrite D1 in BEL. exact BEL. }
    pose proof (OB k NK O1) as O2. pose proof (SI k NK O2) as I. rewrite D1 in I.
    apply same_id_raw in I. apply (sane_raw _ _ S _ _ O2 I).
  - intros k O1. destruct (N.eqb_spec k nk) as [->|NK].
    { rewrite HD. destruct D; simpl in BEL; try contradiction; eauto 6. }
    pose proof (OB k NK O1) as O2. pose proof (SI k NK O2) as I.
    destruct (sane_kind _ _ S k O2) as [[b E]|[[c E]|[[v E]|[s E]]]]; rewrite E in I.
    + left. exists b. apply RW; auto.
    + apply same_id_config_l in I as (? & ? & _). eauto.
    + apply same_id_val_l in I as (? & ? & _). eauto.
    + apply same_id_sol_l in I as (? & ? & _). eauto.
  - intros k P O1. rewrite Ho in *. destruct (N.eqb_spec nk k); [congruence|].
    destruct (sane_pda _ _ S k P O1) as [O2 D2]. split; auto.
Qed.

Lemma sane_val_created e cx a w w' : env_ok e -> sane e w -> val_created e cx a w w' -> sane e w'.
Proof.
  intros OK S []. apply (sane_created e w w' (iv_stake a) (DVal (VStake (Del 0 0 0 wd (iv_vote a) 0 0) 0 0))); auto.
  - intros ck EE. rewrite Hk in EE. now apply (ok_val_vault e OK) in EE.
  - now rewrite Hd, N.eqb_refl.
  - intros k NK _. rewrite Hd. destruct (N.eqb_spec (iv_stake a) k); [congruence|apply same_id_refl].
  - intros k b NK R. rewrite Hd. destruct (N.eqb_spec (iv_stake a) k); [congruence|auto].
  - exists (iv_config a), c. split; [exact Hk|split; auto].
Qed.
Lemma sane_sol_created e cx a w w' : env_ok e -> sane e w -> sol_created e cx a w w' -> sane e w'.
Proof.
  intros OK S [].
  assert (is_val a <> is_stake a) as NE by (intros EE; rewrite EE in Hv; congruence).
  apply (sane_created e w w' (is_stake a)
     (DSol (SStake (Del 0 0 0 au (vw_vote vw) 0 0) (vw_effective vw) (is_native a)))); auto.
  - intros ck EE. rewrite Hk in EE. now apply (ok_sol_vault e OK) in EE.
  - rewrite Hd, N.eqb_refl. destruct (N.eqb_spec (is_val a) (is_stake a)); congruence.
  - intros k NK _. rewrite Hd. destruct (N.eqb_spec (is_val a) k) as [<-|].
    + rewrite Hv. reflexivity.
    + destruct (N.eqb_spec (is_stake a) k); [congruence|apply same_id_refl].
  - intros k b NK R. rewrite Hd. destruct (N.eqb_spec (is_val a) k) as [<-|].
    + congruence.
    + destruct (N.eqb_spec (is_stake a) k); [congruence|auto].
  - exists (is_config a), c. split; [exact Hk|split; auto].
Qed.

Lemma sane_did e cx w w' c : env_ok e -> sane e w -> did e cx w w' c -> sane e w'.
Proof.
  intros OK S H. destruct (creates c) eqn:C.
  - destruct H; try discriminate C.
    + eapply sane_config_created; eauto.
    + eapply sane_val_created; eauto.
    + eapply sane_sol_created; eauto.
  - eapply sane_evolves; eauto. eapply did_evolves; eauto.
Qed.

Lemma pda_vault e ck : pda e (e_vault e ck).
Proof. right; right; left. eauto. Qed.
(** An account that holds something is not removed. *)
Lemma rely_kept e w w' k : rely e w w' -> own (get w k) = e_prog e -> ~ zeroed (dat (get w k)) ->
  own (get w' k) = e_prog e /\ dat (get w' k) = dat (get w k) /\ lam (get w k) <= lam (get w' k).
Proof. intros R O Z. destruct (rely_owned _ _ _ R k O) as [X|(_ & X & _)]; [auto|contradiction]. Qed.
Lemma rely_pda_lam e w w' k : rely e w w' -> pda e k -> lam (get w k) <= lam (get w' k).
Proof.
  intros R P. destruct (N.eq_dec (own (get w k)) (e_prog e)) as [O|O].
  - destruct (rely_owned _ _ _ R k O) as [(_ & _ & L)|(L & _)]; lia.
  - apply (rely_pda _ _ _ R k P O).
Qed.
Lemma config_not_zeroed c : ~ zeroed (DConfig c).
Proof. intros [n X]. discriminate. Qed.
Lemma val_not_zeroed v : ~ zeroed (DVal v).
Proof. intros [n X]. discriminate. Qed.
Lemma sol_not_zeroed s : ~ zeroed (DSol s).
Proof. intros [n X]. discriminate. Qed.
(** What the program owns afterwards is unchanged or zeroed. *)
Lemma rely_back e w w' k : rely e w w' -> own (get w' k) = e_prog e ->
  zeroed (dat (get w' k)) \/
  (own (get w k) = e_prog e /\ dat (get w' k) = dat (get w k) /\ lam (get w k) <= lam (get w' k)).
Proof.
  intros R O. destruct (N.eq_dec (own (get w k)) (e_prog e)) as [E|E]; [|left; eapply rely_new; eauto].
  destruct (rely_owned _ _ _ R k E) as [(A & B & C)|(_ & _ & X & _)]; auto.
Qed.

Lemma sane_rely e w w' : env_ok e -> sane e w -> rely e w w' -> sane e w'.
Proof.
  intros OK S R. destruct (prog_ids e OK) as (P0 & _).
  assert (forall k, own (get w' k) = e_prog e ->
    zeroed (dat (get w' k)) \/ (own (get w k) = e_prog e /\ dat (get w' k) = dat (get w k))) as BK.
  { intros k O. destruct (rely_back _ _ _ k R O) as [Z|(A & B & _)]; auto. }
  assert (forall k c, config_at e w k c -> config_at e w' k c) as CF.
  { intros k c [O D]. destruct (rely_kept _ _ _ k R O) as (A & B & _); [rewrite D; apply config_not_zeroed|].
    split; congruence. }
  split.
  - intros k c [O D]. destruct (BK k O) as [[b X]|[O1 D1]]; [congruence|]. rewrite D in D1. symmetry in D1.
    destruct (sane_cfg _ _ S k c (conj O1 D1)) as (P & BPS & BU & VO & VD).
    split; [auto|]. split; [auto|]. split; [auto|]. destruct VO as [VO|VO].
    + destruct (rely_owned _ _ _ R _ VO) as [(A & B & _)|(_ & _ & _ & X)]; [rewrite A, B; auto|].
      destruct X as [A B]; [apply pda_vault|]. auto.
    + destruct (rely_pda _ _ _ R (e_vault e k)) as (A & B & _); [apply pda_vault|congruence|]. rewrite A, B. auto.
  - intros k c [O D]. destruct (BK k O) as [[b X]|[O1 D1]]; [congruence|]. rewrite D in D1. symmetry in D1.
    destruct (sane_val _ _ S k c (conj O1 D1)) as (ck & cc & K & C). eauto.
  - intros k c [O D]. destruct (BK k O) as [[b X]|[O1 D1]]; [congruence|]. rewrite D in D1. symmetry in D1.
    destruct (sane_sol _ _ S k c (conj O1 D1)) as (ck & cc & K & C). eauto.
  - intros k b O D. destruct (N.eq_dec (own (get w k)) (e_prog e)) as [E|E].
    + destruct (rely_owned _ _ _ R k E) as [(_ & D1 & _)|(_ & _ & Z & P)].
      * rewrite D in D1. symmetry in D1. apply (sane_raw _ _ S _ _ E D1).
      * split; [rewrite <- D; auto|]. intros PD. destruct (P PD). congruence.
    + split. { rewrite <- D. eapply rely_new; eauto. }
      intros P. destruct (rely_pda _ _ _ R k P E) as [X _]. congruence.
  - intros k O. destruct (BK k O) as [[b X]|[O1 D1]]; [eauto|]. rewrite D1. apply (sane_kind _ _ S k O1).
  - intros k P O. destruct (N.eq_dec (own (get w k)) (e_prog e)) as [E|E].
    + destruct (rely_owned _ _ _ R k E) as [(A & _)|(_ & _ & _ & X)]; [congruence|auto].
    + destruct (rely_pda _ _ _ R k P E) as (A & B & _). rewrite A, B. apply (sane_pda _ _ S k P E).
Qed.

Lemma sane_genesis e w : env_ok e -> genesis e w -> sane e w.
Proof.
  intros OK G. destruct (prog_ids e OK) as (P0 & _).
  assert (forall k d, own (get w k) = e_prog e -> dat (get w k) = d -> exists b, d = DRaw b) as Z.
  { intros k d O D. destruct (gen_owned _ _ G k O) as [[n X] _]. subst d. eauto. }
  split.
  - intros k c [O D]. destruct (Z _ _ O D). discriminate.
  - intros k c [O D]. destruct (Z _ _ O D). discriminate.
  - intros k c [O D]. destruct (Z _ _ O D). discriminate.
  - intros k b O D. destruct (gen_owned _ _ G k O) as [Z1 NP]. rewrite D in Z1. split; [auto|]. intros; contradiction.
  - intros k O. destruct (Z k _ O eq_refl) as [b B]. eauto.
  - intros k P O. apply (gen_pda _ _ G k P).
Qed.

(** ** Lamports recorded and rent *)
Definition lamp (e : env) (w : world) : Prop := forall k c, config_at e w k c ->
  cfg_last c <= lam (get w k) /\ e_rent e CONFIG_LEN <= lam (get w k).

Lemma paid_lam_ge w ck auth keeper tot sync k : k <> ck ->
  lam (get w k) <= paid_lam w ck auth keeper tot sync k.
Proof.
  intros NE. unfold paid_lam, keeper_lam. destruct (N.eqb_spec auth k) as [<-|].
  - destruct keeper as [x|]; [destruct (x =? auth)|]; lia.
  - destruct (N.eqb_spec ck k); [congruence|]. destruct keeper as [x|]; [destruct (x =? k)|]; lia.
Qed.
Lemma paid_lam_ck w ck auth keeper tot sync :
  lam (get w ck) - tot <= paid_lam w ck auth keeper tot sync ck.
Proof.
  unfold paid_lam, keeper_lam. rewrite N.eqb_refl. destruct (N.eqb_spec auth ck) as [->|].
  - destruct keeper as [x|]; [destruct (x =? ck)|]; lia.
  - lia.
Qed.

Lemma lamp_harvest e w ck vhr auth va sk keeper w' : lamp e w ->
  harvested e w ck vhr auth va sk keeper w' -> lamp e w'.
Proof.
  intros L H. pose proof (harvested_sk _ _ _ _ _ _ _ _ _ H) as NS. destruct H. intros k c' [O D].
  rewrite Hlams. rewrite Ho in O. rewrite Hdat in D. destruct (N.eqb_spec ck k) as [<-|NE].
  - injection D as <-. simpl.
    pose proof (paid_lam_ck w ck auth keeper (sr + hr) (cfg_sync c)). lia.
  - pose proof (paid_lam_ge w ck auth keeper (sr + hr) (cfg_sync c) k ltac:(auto)).
    destruct (N.eqb_spec sk k) as [->|NK].
    + apply del_of_ok in Hd as [(v & Ev & _)|(v & Ev & _)]; rewrite Ev in D; discriminate.
    + destruct (L k c' (conj O D)). lia.
Qed.
Lemma lamp_keep e w w' : lamp e w -> (forall k, own (get w' k) = own (get w k)) ->
  (forall k c', config_at e w' k c' ->
     exists c, dat (get w k) = DConfig c /\ cfg_last c' = cfg_last c /\ lam (get w k) <= lam (get w' k)) ->
  lamp e w'.
Proof.
  intros L O H k c' C. destruct (H k c' C) as (c & D & E & G). destruct C as [O1 _].
  rewrite O in O1. destruct (L k c (conj O1 D)). lia.
Qed.
Lemma lamp_resync e w ck sk lim w' : lamp e w -> resynced w ck sk lim w' -> lamp e w'.
Proof.
  intros L []. apply (lamp_keep e w); auto. intros k c' [_ D]. rewrite Hlams, Hdat in *.
  destruct (N.eqb_spec ck k) as [<-|].
  - injection D as <-. eauto with lia.
  - destruct (N.eqb_spec sk k) as [<-|NK].
    + apply del_of_ok in Hd as [(v & Ev & _)|(v & Ev & _)]; rewrite Ev in D; discriminate.
    + eauto with lia.
Qed.
Lemma lamp_setd e w k d : lamp e w -> (forall c, d <> DConfig c) -> lamp e (setd w k d).
Proof.
  intros L NC. apply (lamp_keep e w); auto. { intros; now ws. }
  intros k' c' [_ D]. wsi D. ws. destruct (N.eqb_spec k k').
  - exfalso. eapply NC; eauto.
  - eauto with lia.
Qed.
Lemma lamp_put_del e w k d x : lamp e w -> del_of (dat (get w k)) = Ok x -> lamp e (put_del w k d).
Proof.
  intros L D. apply lamp_setd; auto.
  intros c E. apply del_of_ok in D as [(v & Ev & _)|(v & Ev & _)]; rewrite Ev in E; discriminate.
Qed.
Lemma lamp_synced e w ck w' : lamp e w -> synced_cfg w ck w' -> lamp e w'.
Proof.
  intros L []. subst w'. intros k c' [O D]. wsi O. wsi D. ws. destruct (N.eqb_spec ck k) as [<-|].
  - injection D as <-. simpl. destruct (L ck c (conj O Hc)). lia.
  - apply (L k c' (conj O D)).
Qed.
Lemma lamp_ext e w w' pool owner vhr : env_ok e -> sane e w -> lamp e w -> ext_frame e w w' pool owner vhr ->
  own (get w pool) = e_rewards e -> pda e owner -> lamp e w'.
Proof.
  intros OK S L F PO OW. pose proof (ext_pframe _ _ _ _ _ _ OK F) as [A B]. destruct F as [_ _ F].
  intros k c [O D]. rewrite A in O. rewrite (B k O) in D.
  assert (k <> pool). { intros ->. destruct (prog_ids e OK) as (_ & _ & X & _). congruence. }
  assert (k <> owner). { intros ->. now destruct (sane_cfg _ _ S owner c (conj O D)). }
  rewrite F by auto. apply (L k c (conj O D)).
Qed.
Lemma lamp_transferred e sig w src mnt dst auth amount w' : env_ok e -> lamp e w ->
  transferred e sig w src mnt dst auth amount w' -> lamp e w'.
Proof.
  intros OK L H. pose proof (pframe_transferred _ _ _ _ _ _ _ _ _ OK H) as [A B]. destruct H.
  intros k c [O D]. rewrite A in O. rewrite (B k O) in D. rewrite Hl. apply (L k c (conj O D)).
Qed.
Lemma lamp_burned e sig w src mnt auth amount w' : env_ok e -> lamp e w ->
  burned e sig w src mnt auth amount w' -> lamp e w'.
Proof.
  intros OK L H. pose proof (pframe_burned _ _ _ _ _ _ _ _ OK H) as [A B]. destruct H.
  intros k c [O D]. rewrite A in O. rewrite (B k O) in D. rewrite Hl. apply (L k c (conj O D)).
Qed.


Lemma lamp_deposited e sig w pool ptok vhr tacc mnt owner amount acc w' : env_ok e -> sane e w -> lamp e w ->
  pda e owner -> deposited_ok e sig w pool ptok vhr tacc mnt owner amount acc w' -> lamp e w'.
Proof.
  intros OK S L P H. pose proof (deposited_frame _ _ _ _ _ _ _ _ _ _ _ _ H) as F. destruct H.
  eapply lamp_ext; eauto.
Qed.
Lemma lamp_withdrawn e sig w pool ptok vhr tacc mnt owner amount acc w' : env_ok e -> sane e w -> lamp e w ->
  pda e owner -> withdrawn_ok e sig w pool ptok vhr tacc mnt owner amount acc w' -> lamp e w'.
Proof.
  intros OK S L P H. pose proof (withdrawn_frame _ _ _ _ _ _ _ _ _ _ _ _ H) as F. destruct H.
  eapply lamp_ext; eauto.
Qed.
Lemma lamp_rharvested e sig w pool ptok vhr mnt owner acc w' : env_ok e -> sane e w -> lamp e w ->
  pda e owner -> rharvested e sig w pool ptok vhr mnt owner acc w' -> lamp e w'.
Proof.
  intros OK S L P H. pose proof (rharvested_frame _ _ _ _ _ _ _ _ _ _ H) as F. destruct H.
  eapply lamp_ext; eauto.
Qed.

Lemma lamp_staked e cx a n w w' : env_ok e -> sane e w -> lamp e w -> staked_ok e cx a n w w' -> lamp e w'.
Proof.
  intros OK S L [].
  assert (evolves e w w4) as EV.
  { apply evolves_trans with w2; [rewrite H2; eapply del_of_harvest_put; try eassumption; reflexivity|].
    eapply evolves_trans; [eapply evolves_resync; eauto|]. eapply evolves_transferred; eauto. }
  refine (lamp_deposited _ _ _ _ _ _ _ _ _ _ _ _ OK _ _ _ H5).
  - eapply sane_evolves; eauto.
  - eapply lamp_transferred; [exact OK| |eassumption]. eapply lamp_resync; [|eassumption]. subst w2. eapply lamp_put_del; [|eassumption].
    eapply lamp_harvest; [|eassumption]; try assumption.
  - rewrite Hvp. apply pda_vault.
Qed.
Lemma lamp_unstaked e cx a n w w' : env_ok e -> sane e w -> lamp e w -> unstaked_ok e cx a n w w' -> lamp e w'.
Proof.
  intros OK S L [].
  assert (evolves e w w3) as EV.
  { apply evolves_trans with w2; [rewrite H2; eapply del_of_harvest_put; try eassumption; reflexivity|]. eapply evolves_resync; eauto. }
  eapply lamp_transferred; [exact OK| |eassumption]. refine (lamp_withdrawn _ _ _ _ _ _ _ _ _ _ _ _ OK _ _ _ H4).
  - eapply sane_evolves; eauto.
  - eapply lamp_resync; [|eassumption]. subst w2. eapply lamp_put_del; [|eassumption]. eapply lamp_harvest; [|eassumption]; try assumption.
  - rewrite Hvp. apply pda_vault.
Qed.
Lemma lamp_slashed e cx a n w w' : env_ok e -> lamp e w -> slashed_ok e cx a n w w' -> lamp e w'.
Proof.
  intros OK L [].
  eapply lamp_resync; [|eassumption].
  assert (lamp e w2) as L2. { subst w2. eapply lamp_put_del; [|eassumption]. eapply lamp_harvest; [|eassumption]; try assumption. }
  destruct H3 as [[_ ->]|(_ & _ & H3)]; auto. eapply lamp_burned; [exact OK| |eassumption]; assumption.
Qed.
Lemma lamp_moved e cx a n w w' : lamp e w -> moved_ok e cx a n w w' -> lamp e w'.
Proof.
  intros L [].
  eapply lamp_resync; [|eassumption]. eapply lamp_resync; [|eassumption]. subst w4 w3.
  eapply lamp_put_del. eapply lamp_put_del.
  - eapply lamp_harvest; [|eassumption]; try assumption. eapply lamp_harvest; [|eassumption]; try assumption.
  - rewrite Hs. reflexivity.
  - ws. destruct (N.eqb_spec (mv_source a) (mv_dest a)); [congruence|]. rewrite Ht. reflexivity.
Qed.
Lemma lamp_revalidated e w ck vhr vs vk vauth f w' : lamp e w ->
  revalidated e w ck vhr vs vk vauth f w' -> lamp e w'.
Proof.
  intros L []. eapply lamp_resync; [|eassumption]. subst w2. apply lamp_setd; [|discriminate].
  eapply lamp_harvest; [|eassumption]; try assumption.
Qed.
Lemma lamp_harvested_sol e cx a w w' : lamp e w -> harvested_sol_ok e cx a w w' -> lamp e w'.
Proof.
  intros L [].
  - eapply lamp_harvest; [|eassumption]; try assumption.
  - eapply lamp_resync; [|eassumption]. subst w4. apply lamp_setd; [|discriminate].
    assert (lamp e w1) as L1. { eapply lamp_harvest; [|eassumption]; assumption. }
    assert (lamp e w2) as L2.
    { destruct H2; [eapply lamp_revalidated; [|eassumption]|subst]; assumption. }
    destruct H3; [eapply lamp_revalidated; [|eassumption]|subst|subst]; assumption.
Qed.
Lemma vault_auth_eq e w ck c k : env_ok e -> sane e w -> config_at e w ck c ->
  e_create_vault e ck (cfg_bump c) = Some k -> k = e_vault e ck.
Proof.
  intros OK S C H. destruct (sane_cfg _ _ S ck c C) as (_ & _ & B & _).
  rewrite B, (ok_bump e OK) in H. congruence.
Qed.
Lemma lamp_held e cx a w w' : env_ok e -> sane e w -> lamp e w -> held_ok e cx a w w' -> lamp e w'.
Proof.
  intros OK S L H. pose proof (evolves_held _ _ _ _ _ OK H) as EV. destruct H.
  assert (hh_vault_pda a = e_vault e (hh_config a)) as VE by (eapply vault_auth_eq; eauto; split; eauto).
  assert (evolves e w w2) as EV2.
  { eapply evolves_trans; [eapply evolves_synced; eauto|]. eapply evolves_rharvested; eauto. }
  assert (lamp e w2) as L2.
  { refine (lamp_rharvested _ _ _ _ _ _ _ _ _ _ OK _ _ _ H2).
    - eapply sane_evolves; eauto. eapply evolves_synced; eauto.
    - eapply lamp_synced; [|eassumption]; assumption.
    - rewrite VE. apply pda_vault. }
  assert (sane e w2) as S2 by (eapply sane_evolves; eauto).
  intros k c' [O D]. subst w' w3. wsi O. wsi D. ws. rewrite N.eqb_refl in D.
  assert (own (get w2 (hh_config a)) = e_prog e) as O2 by (rewrite (ev_own _ _ _ EV2); auto).
  assert (hh_vault_pda a <> hh_config a) as NE.
  { intros EE. destruct (sane_cfg _ _ S2 (hh_config a) c (conj O2 Hc)) as (NP & _). apply NP.
    rewrite <- EE, VE. apply pda_vault. }
  destruct (N.eqb_spec (hh_config a) k) as [<-|NK].
  - injection D as <-. simpl. destruct (N.eqb_spec (hh_vault_pda a) (hh_config a)); [congruence|].
    destruct (L2 _ _ (conj O2 Hc)). lia.
  - destruct (N.eqb_spec (hh_vault_pda a) k) as [<-|].
    + exfalso. destruct (sane_cfg _ _ S2 _ c' (conj O D)) as (NP & _). apply NP. rewrite VE. apply pda_vault.
    + apply (L2 k c' (conj O D)).
Qed.

Lemma lamp_did e cx w w' c : env_ok e -> sane e w -> lamp e w -> did e cx w w' c -> lamp e w'.
Proof.
  intros OK S L [].
  - destruct (config_created_facts _ _ _ _ _ _ _ _ _ _ _ OK S H) as (bs & D & NB & O & NP & NE).
    destruct H. intros k c' [O1 D1]. rewrite Ho in O1. rewrite Hd in D1. rewrite Hl.
    destruct (N.eqb_spec (ic_config a) k) as [<-|NK].
    + injection D1 as <-. simpl. lia.
    + destruct (N.eqb_spec (ic_vault_pda a) k) as [<-|]; [congruence|]. apply (L k c' (conj O1 D1)).
  - destruct H. intros k c' [O1 D1]. rewrite Ho in O1. rewrite Hd in D1. rewrite Hl.
    destruct (N.eqb_spec (iv_stake a) k) as [<-|NK]; [discriminate|]. apply (L k c' (conj O1 D1)).
  - destruct H. eapply lamp_staked; eauto.
  - eapply lamp_held; eauto.
  - destruct H. eapply lamp_harvest; [|eassumption]; try assumption.
  - destruct H. eapply lamp_slashed; eauto.
  - destruct H. subst w'. apply (lamp_keep e w); auto. { intros; now ws. }
    intros k c' [O1 D1]. wsi D1. ws. destruct (N.eqb_spec (sa_account a) k) as [<-|].
    + injection D1 as <-. exists c0. split; [auto|]. destruct t; simpl; auto with lia.
    + eauto with lia.
  - destruct H. subst w'. apply (lamp_keep e w); auto. { intros; now ws. }
    intros k c' [O1 D1]. wsi D1. ws. destruct (N.eqb_spec (uc_config a) k) as [<-|].
    + injection D1 as <-. exists c0. split; [auto|]. destruct f; simpl; auto with lia.
    + eauto with lia.
  - destruct H. intros k c' [O1 D1]. rewrite Ho in O1. rewrite Hd in D1. rewrite Hl.
    destruct (N.eqb_spec (is_val a) k) as [<-|NK]; [discriminate|].
    destruct (N.eqb_spec (is_stake a) k) as [<-|NK']; [discriminate|]. apply (L k c' (conj O1 D1)).
  - destruct H. eapply lamp_staked; eauto.
  - eapply lamp_harvested_sol; eauto.
  - eapply lamp_unstaked; eauto.
  - destruct H. eapply lamp_slashed; eauto.
  - eapply lamp_moved; eauto.
  - destruct H. eapply lamp_resync; [|eassumption]. subst w2. apply lamp_setd; [|discriminate]. eapply lamp_harvest; [|eassumption]; try assumption.
  - destruct H. subst w'. eapply lamp_put_del; [eassumption|]. rewrite Hv. reflexivity.
Qed.

Lemma lamp_rely e w w' : lamp e w -> rely e w w' -> lamp e w'.
Proof.
  intros L R k c [O D]. destruct (rely_back _ _ _ k R O) as [[n X]|(E & B & G)]; [congruence|].
  rewrite D in B. symmetry in B. destruct (L k c (conj E B)). lia.
Qed.
