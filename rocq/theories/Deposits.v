(** Invariant, part 6: what is staked, plus what was slashed, is what the vault
    authority has deposited in the rewards pool. *)
From Verif Require Import Base Types Layout Instr Math External Processor Runtime History Spec
  WorldLemmas Effects Handlers Evolve Sane Wf Arith Totals Nets.

(** ** Staked amounts and cooldowns *)
Definition stk (D : adata) : option (N * N) :=
  match del_of D with Ok d => Some (staked d, cooldown d) | _ => None end.
Definition sframe (e : env) (w w' : world) : Prop :=
  (forall k, own (get w' k) = own (get w k)) /\
  (forall k, own (get w k) = e_prog e -> stk (dat (get w' k)) = stk (dat (get w k))).
Lemma sframe_refl e w : sframe e w w.
Proof. split; auto. Qed.
Lemma sframe_trans e w1 w2 w3 : sframe e w1 w2 -> sframe e w2 w3 -> sframe e w1 w3.
Proof.
  intros [A1 A2] [B1 B2]. split.
  - intros k. rewrite B1. auto.
  - intros k O. rewrite B2; [auto|]. now rewrite A1.
Qed.
Lemma stk_del D d : del_of D = Ok d -> stk D = Some (staked d, cooldown d).
Proof. intros H. unfold stk. now rewrite H. Qed.
Lemma stk_some D x y : stk D = Some (x, y) -> exists d, del_of D = Ok d /\ staked d = x /\ cooldown d = y.
Proof. unfold stk. destruct (del_of D) as [d| |]; try discriminate. intros [= <- <-]. eauto. Qed.
Lemma stk_upd D x y : del_of D = Ok x -> stk (upd_del D y) = Some (staked y, cooldown y).
Proof. intros H. apply stk_del. eapply del_of_upd'; eauto. Qed.
Lemma stk_with_del g D d : del_of D = Ok d -> stk (with_del g D) = Some (staked (g d), cooldown (g d)).
Proof. intros H. rewrite (with_del_ok _ _ _ H). eapply stk_upd; eauto. Qed.
Lemma stk_with_del_same g D : (forall d, staked (g d) = staked d /\ cooldown (g d) = cooldown d) ->
  stk (with_del g D) = stk D.
Proof.
  intros G. unfold with_del. destruct (del_of D) as [d| |] eqn:E; auto. destruct (G d) as [A B].
  rewrite (stk_upd _ _ _ E), A, B, (stk_del _ _ E). auto.
Qed.
Lemma sframe_harvest e w ck vhr auth va sk keeper w' :
  harvested e w ck vhr auth va sk keeper w' -> sframe e w w'.
Proof.
  intros H. destruct (harvested_net _ _ _ _ _ _ _ _ _ H)
    as (c & d & h & rpt & sr & hr & RD & _ & _ & O1 & _ & C1 & S1 & X1). split; [auto|].
  intros k O. destruct (N.eq_dec k ck) as [->|N1]; [rewrite C1, (rd_c _ _ _ _ _ _ _ _ _ _ _ RD); auto|].
  destruct (N.eq_dec k sk) as [->|N2]; [rewrite S1; apply stk_with_del_same; auto|]. rewrite X1; auto.
Qed.
Lemma sframe_resync e w ck sk lim w' : resynced w ck sk lim w' -> sframe e w w'.
Proof.
  intros []. split; [auto|]. intros k O. rewrite Hdat. destruct (N.eqb_spec ck k) as [<-|]; [now rewrite Hc|].
  destruct (N.eqb_spec sk k) as [<-|]; auto. rewrite (stk_upd _ _ _ Hd), (stk_del _ _ Hd). auto.
Qed.
Lemma sframe_setd e w k D : stk D = stk (dat (get w k)) -> sframe e w (setd w k D).
Proof. intros T. split; intros; ws; auto. destruct (N.eqb_spec k k0) as [<-|]; auto. Qed.
Lemma sframe_pframe e w w' : pframe e w w' -> sframe e w w'.
Proof. intros [A B]. split; auto. intros k O. now rewrite B. Qed.
Lemma sframe_revalidated e w ck vhr vs vk vauth f w' : revalidated e w ck vhr vs vk vauth f w' -> sframe e w w'.
Proof.
  intros []. apply sframe_trans with w1; [eapply sframe_harvest; eauto|].
  apply sframe_trans with w2; [|eapply sframe_resync; eauto]. rewrite H2. apply sframe_setd. now rewrite Hv.
Qed.
Lemma sframe_left e w a s w' : left_ok e w a s w' -> sframe e w w'.
Proof. intros []; [eapply sframe_revalidated; eauto|]. rewrite Hw. apply sframe_refl. Qed.
Lemma sframe_joined e w a cv cs w' cv' cs' : joined_ok e w a cv cs w' cv' cs' -> sframe e w w'.
Proof. intros []; [eapply sframe_revalidated; eauto| |]; rewrite Hw; apply sframe_refl. Qed.
Lemma sframe_harvested_sol e cx a w w' : harvested_sol_ok e cx a w w' -> sframe e w w'.
Proof.
  intros []; [eapply sframe_harvest; eauto|].
  apply sframe_trans with w1; [eapply sframe_harvest; eauto|].
  apply sframe_trans with w2; [eapply sframe_left; eauto|].
  apply sframe_trans with w3; [eapply sframe_joined; eauto|].
  apply sframe_trans with w4; [|eapply sframe_resync; eauto]. rewrite H4. apply sframe_setd. now rewrite Hs3.
Qed.
Lemma sframe_overridden e cx a n w w' : overridden_ok e cx a n w w' -> sframe e w w'.
Proof.
  intros []. apply sframe_trans with w1; [eapply sframe_harvest; eauto|].
  apply sframe_trans with w2; [|eapply sframe_resync; eauto]. rewrite H2. apply sframe_setd. now rewrite Hv.
Qed.
Lemma sframe_held e cx a w w' : env_ok e -> held_ok e cx a w w' -> sframe e w w'.
Proof.
  intros OK H. pose proof (evolves_held _ _ _ _ _ OK H) as EV. destruct H.
  pose proof (pframe_rharvested _ _ _ _ _ _ _ _ _ _ OK H2) as [PO PD].
  destruct H1 as [c1 rpt Hc1 _ _ Hw1]. split; [apply (ev_own _ _ _ EV)|]. intros k O. rewrite H4. ws.
  destruct (N.eqb_spec (hh_config a) k) as [<-|NE]; [now rewrite Hc0|]. rewrite H3. ws. rewrite PD.
  - rewrite Hw1. ws. destruct (N.eqb_spec (hh_config a) k); [congruence|auto].
  - rewrite Hw1. ws. auto.
Qed.

(** The instructions that change no staked amount and no cooldown. *)
Definition quiet (c : call) : bool :=
  match c with
  | CHarvestHolderRewards _ | CHarvestValidatorRewards _ | CSetAuthority _ _ | CUpdateConfig _ _
  | CHarvestSolStakerRewards _ | CValidatorOverride _ _ | CValidatorSyncAuthority _ => true
  | _ => false
  end.
Lemma sframe_quiet e cx w w' c : env_ok e -> did e cx w w' c -> quiet c = true -> sframe e w w'.
Proof.
  intros OK D Q. revert Q. destruct D; intros Q; try discriminate.
  - eapply sframe_held; eauto.
  - destruct H. eapply sframe_harvest; eauto.
  - destruct H. subst w'. apply sframe_setd. rewrite Hc. reflexivity.
  - destruct H. subst w'. apply sframe_setd. rewrite Hc. reflexivity.
  - eapply sframe_harvested_sol; eauto.
  - eapply sframe_overridden; eauto.
  - destruct H. subst w'. unfold put_del. apply sframe_setd. rewrite Hv. reflexivity.
Qed.

(** Under the same identity the stake accounts of a config are the same. *)
Lemma stake_of_evolves_stk e w w' ck k : evolves e w w' ->
  (own (get w k) = e_prog e -> stk (dat (get w' k)) = stk (dat (get w k))) ->
  option_map (fun d => (staked d, cooldown d)) (stake_of e w' ck k) =
  option_map (fun d => (staked d, cooldown d)) (stake_of e w ck k).
Proof.
  intros EV H. unfold stake_of, stake_in. rewrite (ev_own _ _ _ EV).
  destruct (N.eqb_spec (own (get w k)) (e_prog e)) as [O|]; auto. specialize (H O).
  pose proof (ev_id _ _ _ EV k O) as I.
  destruct (dat (get w k)) eqn:D1, (dat (get w' k)) eqn:D2; simpl in I; try discriminate; auto.
  - rewrite I. unfold stk in H. simpl in H. destruct (_ =? _); auto.
  - destruct I as [-> _]. unfold stk in H. simpl in H. destruct (_ =? _); auto.
Qed.
Lemma sum_of_ext e w w' ck g :
  (forall k, option_map g (stake_of e w' ck k) = option_map g (stake_of e w ck k)) ->
  sum_of e w' ck g = sum_of e w ck g.
Proof.
  intros H. unfold sum_of. apply wsum_eq; auto using sum_of_zero_default.
  intros k. specialize (H k). unfold stake_of in H.
  destruct (stake_in e ck k (get w k)), (stake_in e ck k (get w' k)); simpl in H; congruence.
Qed.
Lemma sum_staked_ext e w w' ck :
  (forall k, option_map (fun d => (staked d, cooldown d)) (stake_of e w' ck k) =
             option_map (fun d => (staked d, cooldown d)) (stake_of e w ck k)) ->
  sum_of e w' ck staked = sum_of e w ck staked.
Proof.
  intros H. apply sum_of_ext. intros k. specialize (H k).
  destruct (stake_of e w ck k), (stake_of e w' ck k); simpl in *; congruence.
Qed.
Lemma sum_staked_sframe e w w' ck : evolves e w w' -> sframe e w w' ->
  sum_of e w' ck staked = sum_of e w ck staked.
Proof. intros EV [_ S]. apply sum_staked_ext. intros k. apply stake_of_evolves_stk; auto. Qed.
Lemma sum_of_at e w w' ck g sk d d' : stake_of e w ck sk = Some d -> stake_of e w' ck sk = Some d' ->
  (forall k, k <> sk -> stake_of e w' ck k = stake_of e w ck k) ->
  sum_of e w' ck g + g d = sum_of e w ck g + g d'.
Proof.
  intros A B H. unfold sum_of.
  set (f := fun k a => match stake_in e ck k a with Some d => g d | None => 0 end).
  pose proof (wsum_upd f f (sum_of_zero_default e ck g) (sum_of_zero_default e ck g) w w' sk) as U.
  unfold stake_of in *. replace (f sk (get w sk)) with (g d) in U by (unfold f; now rewrite A).
  replace (f sk (get w' sk)) with (g d') in U by (unfold f; now rewrite B). apply U.
  intros k NE. unfold f. now rewrite H.
Qed.

(** What a [chained] step does to the stake accounts. *)
Lemma chained_stake e w ck va sk g lim w' :
  chained e w ck va sk (with_del g) lim w' -> own (get w sk) = e_prog e ->
  belongs e ck sk (dat (get w sk)) -> (forall d, vote (g d) = vote d) ->
  exists c d h rpt sr hr, reading e w ck va sk c d h rpt sr hr /\
    stake_of e w ck sk = Some d /\
    stake_of e w' ck sk = Some (set_effective (g (settle_del c rpt h d))
        (N.min (staked (g (settle_del c rpt h d))) (cap lim))) /\
    (forall ck' k, k <> sk -> stake_of e w' ck' k = stake_of e w ck' k).
Proof.
  intros [] OS B G. exists c, d, h, rpt, sr, hr. pose proof (rd_d _ _ _ _ _ _ _ _ _ _ _ Hrd) as Dd.
  split; [exact Hrd|]. split; [apply stake_of_intro; auto|].
  assert (D2 = upd_del (dat (get w sk)) (g (settle_del c rpt h d))) as E2.
  { rewrite HD2. erewrite with_del_ok; [|erewrite with_del_ok by eauto; eapply del_of_upd'; eauto].
    rewrite (with_del_ok _ _ _ Dd). now rewrite upd_upd. }
  assert (d2 = g (settle_del c rpt h d)) as ->.
  { rewrite E2 in Hd2. erewrite del_of_upd' in Hd2 by eauto. congruence. }
  split.
  - apply stake_of_intro; rewrite ?Hown; auto.
    + rewrite Hsk, E2. eapply del_of_upd'. eapply del_of_upd'. eauto.
    + rewrite Hsk, E2, upd_upd. destruct (dat (get w sk)); simpl in *; try contradiction; auto.
      injection Dd as <-. rewrite G. auto.
  - intros ck' k NE. destruct (N.eq_dec k ck) as [->|NC].
    + rewrite (stake_of_config _ _ _ _ _ Hck). symmetry. eapply stake_of_config.
      apply (rd_c _ _ _ _ _ _ _ _ _ _ _ Hrd).
    + apply stake_of_eq; auto.
Qed.
Lemma moved_stake e w ck sk tk n w' : moved_net e w ck sk tk n w' -> sk <> tk ->
  forall k ck', k <> sk -> k <> tk -> own (get w ck) = e_prog e -> (exists c, dat (get w ck) = DConfig c) ->
  stake_of e w' ck' k = stake_of e w ck' k.
Proof.
  intros [] NE k ck' N1 N2 OC [c Hc]. destruct (N.eq_dec k ck) as [->|NC].
  - rewrite (stake_of_config _ _ _ _ _ Hc'), (stake_of_config _ _ _ _ _ Hc). auto.
  - apply stake_of_eq; auto.
Qed.

(** Summed staked amounts: what each instruction adds and removes. *)
Definition stake_added (w : world) (c : call) (ck : pubkey) : N :=
  match c with
  | CValidatorStakeTokens a n | CSolStakerStakeTokens a n => if ck =? st_config a then n else 0
  | _ => 0
  end.
Definition stake_slashed (e : env) (w : world) (c : call) (ck : pubkey) : N :=
  match c with
  | CSlashValidatorStake a n | CSlashSolStakerStake a n =>
      if ck =? sl_config a then
        match stake_of e w ck (sl_stake a) with Some d => N.min n (staked d) | None => 0 end
      else 0
  | _ => 0
  end.
Definition stake_removed (c : call) (ck : pubkey) : N :=
  match c with CUnstakeTokens a n => if ck =? un_config a then n else 0 | _ => 0 end.

Lemma sum_staked_did e cx w w' c ck : env_ok e -> sane e w -> did e cx w w' c ->
  sum_of e w' ck staked + stake_slashed e w c ck + stake_removed c ck =
  sum_of e w ck staked + stake_added w c ck.
Proof.
  intros OK S D.
  assert (forall ck0, creates c = false -> call_config c = ck0 -> ck <> ck0 ->
          sum_of e w' ck staked = sum_of e w ck staked) as OTHER.
  { intros ck0 CR <- NE. apply sum_of_eq. intros k.
    pose proof (did_psteps _ _ _ _ _ OK S D CR) as P. clear D S CR. revert ck NE k.
    induction P; intros ck NE k; auto. rewrite IHP by auto. eapply pstep_stake_of_other; eauto. }
  destruct (quiet c) eqn:Q.
  { assert (creates c = false) as CR by (destruct c; auto; discriminate).
    rewrite (sum_staked_sframe _ _ _ _ (did_evolves _ _ _ _ _ OK D CR) (sframe_quiet _ _ _ _ _ OK D Q)).
    destruct c; simpl in *; try discriminate; lia. }
  destruct D; simpl in Q; try discriminate.
  - simpl. rewrite (sum_of_eq e w w'); [lia|]. intros k. eapply stake_of_created_config; eauto.
  - simpl. destruct (stake_of_created_val _ _ _ _ _ OK H) as [(d0 & S1 & Z1 & _ & O1) S2].
    rewrite (sum_of_created _ _ _ _ _ _ _ O1 Z1 S1 OK S2). lia.
  - destruct (N.eq_dec ck (st_config a)) as [->|NE].
    2: { rewrite (OTHER (st_config a)) by auto. simpl. destruct (N.eqb_spec ck (st_config a)); [congruence|lia]. }
    simpl. rewrite N.eqb_refl. pose proof (staked_net _ _ _ _ _ _ OK H) as CH. destruct H.
    destruct (chained_stake _ _ _ _ _ _ _ _ CH) as (? & d & ? & ? & ? & ? & _ & S1 & S2 & S3); auto.
    pose proof (sum_of_at _ _ _ _ staked _ _ _ S1 S2) as U. simpl in U. specialize (U (S3 _)). lia.
  - destruct (N.eq_dec ck (sl_config a)) as [->|NE].
    2: { rewrite (OTHER (sl_config a)) by auto. simpl. destruct (N.eqb_spec ck (sl_config a)); [congruence|lia]. }
    simpl. rewrite N.eqb_refl. pose proof (slashed_net _ _ _ _ _ _ OK H) as CH. destruct H.
    destruct (chained_stake _ _ _ _ _ _ _ _ CH) as (? & d & ? & ? & ? & ? & _ & S1 & S2 & S3); auto.
    pose proof (sum_of_at _ _ _ _ staked _ _ _ S1 S2) as U. simpl in U. specialize (U (S3 _)). rewrite S1.
    pose proof (N.le_min_r n (staked d)). lia.
  - simpl. destruct (stake_of_created_sol _ _ _ _ _ OK H) as [(d0 & S1 & Z1 & _ & O1) S2].
    rewrite (sum_of_created _ _ _ _ _ _ _ O1 Z1 S1 OK S2). lia.
  - destruct (N.eq_dec ck (st_config a)) as [->|NE].
    2: { rewrite (OTHER (st_config a)) by auto. simpl. destruct (N.eqb_spec ck (st_config a)); [congruence|lia]. }
    simpl. rewrite N.eqb_refl. pose proof (staked_net _ _ _ _ _ _ OK H) as CH. destruct H.
    destruct (chained_stake _ _ _ _ _ _ _ _ CH) as (? & d & ? & ? & ? & ? & _ & S1 & S2 & S3); auto.
    pose proof (sum_of_at _ _ _ _ staked _ _ _ S1 S2) as U. simpl in U. specialize (U (S3 _)). lia.
  - destruct (N.eq_dec ck (un_config a)) as [->|NE].
    2: { rewrite (OTHER (un_config a)) by auto. simpl. destruct (N.eqb_spec ck (un_config a)); [congruence|lia]. }
    simpl. rewrite N.eqb_refl. destruct (unstaked_net _ _ _ _ _ _ OK H) as (c0 & _ & CH). destruct H.
    destruct (chained_stake _ _ _ _ _ _ _ _ CH) as (? & d1 & ? & ? & ? & ? & RD & S1 & S2 & S3); auto.
    pose proof (sum_of_at _ _ _ _ staked _ _ _ S1 S2) as U. simpl in U. specialize (U (S3 _)).
    assert (staked d = staked d1).
    { destruct (sframe_harvest _ _ _ _ _ _ _ _ _ H1) as [_ SF]. specialize (SF _ Hso).
      rewrite (stk_del _ _ Hd), (stk_del _ _ (rd_d _ _ _ _ _ _ _ _ _ _ _ RD)) in SF. congruence. }
    lia.
  - destruct (N.eq_dec ck (sl_config a)) as [->|NE].
    2: { rewrite (OTHER (sl_config a)) by auto. simpl. destruct (N.eqb_spec ck (sl_config a)); [congruence|lia]. }
    simpl. rewrite N.eqb_refl. pose proof (slashed_net _ _ _ _ _ _ OK H) as CH. destruct H.
    destruct (chained_stake _ _ _ _ _ _ _ _ CH) as (? & d & ? & ? & ? & ? & _ & S1 & S2 & S3); auto.
    pose proof (sum_of_at _ _ _ _ staked _ _ _ S1 S2) as U. simpl in U. specialize (U (S3 _)). rewrite S1.
    pose proof (N.le_min_r n (staked d)). lia.
  - destruct (N.eq_dec ck (mv_config a)) as [->|NE].
    2: { rewrite (OTHER (mv_config a)) by auto. simpl. lia. }
    simpl. pose proof (moved_net_ok _ _ _ _ _ _ H) as M. pose proof (evolves_moved _ _ _ _ _ _ H) as EV. destruct H.
    assert (stake_of e w (mv_config a) (mv_source a) <> None) as X1.
    { erewrite stake_of_intro; [discriminate|auto|rewrite Hs0; reflexivity|rewrite Hs0; simpl; auto]. }
    destruct (stake_of e w (mv_config a) (mv_source a)) as [ds|] eqn:Es; [clear X1|congruence].
    assert (exists t1, dat (get w (mv_dest a)) = DSol t1 /\ s_native t1 = s_native t0) as (t1 & Et1 & Nt).
    { pose proof (ev_id _ _ _ (evolves_harvest _ _ _ _ _ _ _ _ _ H1) _ Hto) as I. rewrite Ht0 in I.
      apply same_id_sol in I as (t1 & A & B & _). eauto. }
    assert (stake_of e w (mv_config a) (mv_dest a) = Some (s_del t1)) as Et.
    { apply stake_of_intro; [auto|rewrite Et1; reflexivity|rewrite Et1; simpl; congruence]. }
    assert (ds = s_del s0) as ->.
    { apply stake_of_some in Es as (_ & A & _). rewrite Hs0 in A. simpl in A. congruence. }
    pose proof M as M2. destruct M2. assert (s1 = s0) as -> by congruence. assert (t2 = t1) as -> by congruence.
    assert (stake_of e w' (mv_config a) (mv_source a) = Some ds) as Es'.
    { apply stake_of_intro; [rewrite Hown; auto|rewrite Hs'; reflexivity|rewrite Hs'; simpl; auto]. }
    assert (stake_of e w' (mv_config a) (mv_dest a) = Some dt) as Et'.
    { apply stake_of_intro; [rewrite Hown; auto|rewrite Ht'; reflexivity|rewrite Ht'; simpl; congruence]. }
    (* through an intermediate world with only the source changed *)
    set (wi := put w (mv_source a) (get w' (mv_source a))).
    assert (forall ck' k, stake_of e wi ck' k = if mv_source a =? k then stake_of e w' ck' k else stake_of e w ck' k) as WI.
    { intros ck' k. unfold stake_of, wi. rewrite get_put. destruct (N.eqb_spec (mv_source a) k) as [<-|]; auto. }
    pose proof (sum_of_at e w wi (mv_config a) staked (mv_source a) (s_del s0) ds Es) as U1.
    rewrite WI, N.eqb_refl in U1. specialize (U1 Es').
    pose proof (sum_of_at e wi w' (mv_config a) staked (mv_dest a) (s_del t1) dt) as U2.
    rewrite WI in U2. destruct (N.eqb_spec (mv_source a) (mv_dest a)) as [EE|]; [congruence|].
    specialize (U2 Et Et').
    assert (sum_of e wi (mv_config a) staked + staked (s_del s0) = sum_of e w (mv_config a) staked + staked ds) as V1.
    { apply U1. intros k NE. rewrite WI. destruct (N.eqb_spec (mv_source a) k); congruence. }
    assert (sum_of e w' (mv_config a) staked + staked (s_del t1) = sum_of e wi (mv_config a) staked + staked dt) as V2.
    { apply U2. intros k NE. rewrite WI. destruct (N.eqb_spec (mv_source a) k); auto.
      eapply moved_stake; eauto. }
    rewrite Hds in V1. rewrite Hdt in V2. simpl in V1, V2. lia.
Qed.

(** ** Deposits *)
Definition hframe (w w' : world) : Prop := forall k h, dat (get w' k) = DHolder h <-> dat (get w k) = DHolder h.
Lemma hframe_refl w : hframe w w.
Proof. intros k h. tauto. Qed.
Lemma hframe_trans w1 w2 w3 : hframe w1 w2 -> hframe w2 w3 -> hframe w1 w3.
Proof. intros A B k h. specialize (A k h). specialize (B k h). tauto. Qed.
Lemma hframe_same w w' : (forall k, dat (get w' k) = dat (get w k)) -> hframe w w'.
Proof. intros A k h. rewrite (A k). tauto. Qed.
Definition no_holder (D : adata) : Prop := forall h, D <> DHolder h.
Lemma hframe_setd w k D : no_holder D -> no_holder (dat (get w k)) -> hframe w (setd w k D).
Proof.
  intros A B k' h. ws. destruct (N.eqb_spec k k') as [<-|]; [|tauto].
  split; intros E; exfalso; [eapply A|eapply B]; eauto.
Qed.
Lemma no_holder_del D d : del_of D = Ok d -> no_holder D.
Proof. intros H h ->. discriminate. Qed.
Lemma no_holder_upd D d : no_holder D -> no_holder (upd_del D d).
Proof. intros H h E. destruct D; simpl in E; try discriminate. eapply H; eauto. Qed.
Lemma hframe_put_del w k d x : del_of (dat (get w k)) = Ok x -> hframe w (put_del w k d).
Proof. intros H. pose proof (no_holder_del _ _ H). unfold put_del. apply hframe_setd; auto using no_holder_upd. Qed.
Lemma hframe_harvest e w ck vhr auth va sk keeper w' : harvested e w ck vhr auth va sk keeper w' -> hframe w w'.
Proof.
  intros [] k h0. rewrite Hdat. destruct (N.eqb_spec ck k) as [<-|].
  { split; [discriminate|congruence]. }
  destruct (N.eqb_spec sk k) as [<-|]; [|tauto]. pose proof (no_holder_del _ _ Hd) as A.
  split; intros E; exfalso; [eapply (no_holder_upd _ _ A)|eapply A]; eauto.
Qed.
Lemma hframe_resync w ck sk lim w' : resynced w ck sk lim w' -> hframe w w'.
Proof.
  intros [] k h0. rewrite Hdat. destruct (N.eqb_spec ck k) as [<-|].
  { split; [discriminate|congruence]. }
  destruct (N.eqb_spec sk k) as [<-|]; [|tauto]. pose proof (no_holder_del _ _ Hd) as A.
  split; intros E; exfalso; [eapply (no_holder_upd _ _ A)|eapply A]; eauto.
Qed.
Lemma hframe_synced w ck w' : synced_cfg w ck w' -> hframe w w'.
Proof. intros []. subst w'. apply hframe_setd; [intros ?; discriminate|]. rewrite Hc. intros ?; discriminate. Qed.
Lemma hframe_transferred e sig w src mnt dst auth amount w' : transferred e sig w src mnt dst auth amount w' -> hframe w w'.
Proof.
  intros [] k h. rewrite Hdat. destruct (N.eqb_spec src dst); [tauto|].
  destruct (N.eqb_spec src k) as [<-|]; [split; [discriminate|congruence]|].
  destruct (N.eqb_spec dst k) as [<-|]; [split; [discriminate|congruence]|tauto].
Qed.
Lemma hframe_burned e sig w src mnt auth amount w' : burned e sig w src mnt auth amount w' -> hframe w w'.
Proof.
  intros [] k h. rewrite Hdat.
  destruct (N.eqb_spec src k) as [<-|]; [split; [discriminate|congruence]|].
  destruct (N.eqb_spec mnt k) as [<-|]; [split; [discriminate|congruence]|tauto].
Qed.
Lemma hframe_revalidated e w ck vhr vs vk vauth f w' : revalidated e w ck vhr vs vk vauth f w' -> hframe w w'.
Proof.
  intros []. apply hframe_trans with w1; [eapply hframe_harvest; eauto|].
  apply hframe_trans with w2; [|eapply hframe_resync; eauto]. rewrite H2.
  apply hframe_setd; [intros ?; discriminate|]. rewrite Hv. intros ?; discriminate.
Qed.
Lemma hframe_harvested_sol e cx a w w' : harvested_sol_ok e cx a w w' -> hframe w w'.
Proof.
  intros []; [eapply hframe_harvest; eauto|].
  apply hframe_trans with w1; [eapply hframe_harvest; eauto|].
  apply hframe_trans with w2.
  { destruct H2; [eapply hframe_revalidated; eauto|]. rewrite Hw. apply hframe_refl. }
  apply hframe_trans with w3.
  { destruct H3; [eapply hframe_revalidated; eauto| |]; rewrite Hw; apply hframe_refl. }
  apply hframe_trans with w4; [|eapply hframe_resync; eauto]. rewrite H4.
  apply hframe_setd; [intros ?; discriminate|]. rewrite Hs3. intros ?; discriminate.
Qed.
Lemma hframe_slashed e cx a n w w' : slashed_ok e cx a n w w' -> hframe w w'.
Proof.
  intros []. apply hframe_trans with w1; [eapply hframe_harvest; eauto|].
  apply hframe_trans with w2; [rewrite H2; eapply hframe_put_del; eauto|].
  apply hframe_trans with w3; [|eapply hframe_resync; eauto].
  destruct H3 as [[_ ->]|(_ & _ & B)]; [apply hframe_refl|eapply hframe_burned; eauto].
Qed.
Lemma hframe_moved e cx a n w w' : moved_ok e cx a n w w' -> hframe w w'.
Proof.
  intros []. apply hframe_trans with w1; [eapply hframe_harvest; eauto|].
  apply hframe_trans with w2; [eapply hframe_harvest; eauto|].
  apply hframe_trans with w3; [rewrite H3; eapply hframe_put_del; rewrite Hs; reflexivity|].
  apply hframe_trans with w4.
  { rewrite H4. eapply hframe_put_del. rewrite H3. ws.
    destruct (N.eqb_spec (mv_source a) (mv_dest a)); [congruence|]. rewrite Ht. reflexivity. }
  apply hframe_trans with w5; eapply hframe_resync; eauto.
Qed.
Lemma hframe_overridden e cx a n w w' : overridden_ok e cx a n w w' -> hframe w w'.
Proof.
  intros []. apply hframe_trans with w1; [eapply hframe_harvest; eauto|].
  apply hframe_trans with w2; [|eapply hframe_resync; eauto]. rewrite H2.
  apply hframe_setd; [intros ?; discriminate|]. rewrite Hv. intros ?; discriminate.
Qed.

(** One holder account is rewritten. *)
Definition hupd (w w' : world) (vhr : pubkey) (h h' : holder) : Prop :=
  dat (get w vhr) = DHolder h /\ dat (get w' vhr) = DHolder h' /\
  forall k x, k <> vhr -> dat (get w' k) = DHolder x <-> dat (get w k) = DHolder x.
Lemma hupd_before w w1 w2 vhr h h' : hframe w w1 -> hupd w1 w2 vhr h h' -> hupd w w2 vhr h h'.
Proof.
  intros A (B1 & B2 & B3). split; [now apply A|]. split; [auto|]. intros k x NE. rewrite (B3 k x NE). apply A.
Qed.
Lemma hupd_after w w1 w2 vhr h h' : hupd w w1 vhr h h' -> hframe w1 w2 -> hupd w w2 vhr h h'.
Proof.
  intros (B1 & B2 & B3) A. split; [auto|]. split; [now apply A|]. intros k x NE. rewrite (A k x). auto.
Qed.
Lemma hupd_setd w vhr h h' : dat (get w vhr) = DHolder h -> hupd w (setd w vhr (DHolder h')) vhr h h'.
Proof.
  intros D. split; [auto|]. split; [ws; now rewrite N.eqb_refl|]. intros k x NE. ws.
  destruct (N.eqb_spec vhr k); [congruence|tauto].
Qed.
Lemma hupd_deposited e sig w pool ptok vhr tacc mnt owner amount acc w' :
  deposited_ok e sig w pool ptok vhr tacc mnt owner amount acc w' ->
  exists h, vhr = e_holder e owner /\ hupd w w' vhr h (Hold acc (h_deposited h + amount)).
Proof.
  intros []. exists h. split; [auto|]. apply hupd_after with w2; [|now apply hframe_same].
  apply hupd_after with w1; [|eapply hframe_transferred; eauto]. subst w1. now apply hupd_setd.
Qed.
Lemma hupd_withdrawn e sig w pool ptok vhr tacc mnt owner amount acc w' :
  withdrawn_ok e sig w pool ptok vhr tacc mnt owner amount acc w' ->
  exists h last, vhr = e_holder e owner /\ (last = acc \/ last = h_last h) /\
    withdraw_amount h amount <= h_deposited h /\
    hupd w w' vhr h (Hold last (h_deposited h - withdraw_amount h amount)).
Proof.
  intros []. exists h, last. split; [auto|]. split; [destruct Hcase as [[_ ->]|[_ ->]]; auto|]. split; [auto|].
  apply hupd_after with w2; [|now apply hframe_same].
  apply hupd_after with w1; [|eapply hframe_transferred; eauto]. subst w1. now apply hupd_setd.
Qed.
Lemma hupd_rharvested e sig w pool ptok vhr mnt owner acc w' :
  rharvested e sig w pool ptok vhr mnt owner acc w' ->
  exists h, vhr = e_holder e owner /\ hupd w w' vhr h (Hold acc (h_deposited h)).
Proof.
  intros []. exists h. split; [auto|]. split; [auto|]. split; [rewrite Hdat; now rewrite N.eqb_refl|].
  intros k x NE. rewrite Hdat. destruct (N.eqb_spec vhr k); [congruence|tauto].
Qed.

Lemma deposit_hframe e w w' ck : hframe w w' -> deposit e w' ck = deposit e w ck.
Proof.
  intros H. unfold deposit. specialize (H (e_holder e (e_vault e ck))).
  destruct (dat (get w _)) eqn:D1; destruct (dat (get w' _)) eqn:D2; auto;
    try (specialize (proj1 (H h) eq_refl); congruence); try (specialize (proj2 (H h) eq_refl); congruence).
Qed.
Lemma deposit_hupd e w w' ck0 ck h h' : env_ok e -> hupd w w' (e_holder e (e_vault e ck0)) h h' ->
  deposit e w' ck + (if ck =? ck0 then h_deposited h else 0) =
  deposit e w ck + (if ck =? ck0 then h_deposited h' else 0).
Proof.
  intros OK (A & B & C). unfold deposit. destruct (N.eqb_spec ck ck0) as [->|NE].
  - rewrite A, B. lia.
  - specialize (C (e_holder e (e_vault e ck))).
    assert (e_holder e (e_vault e ck) <> e_holder e (e_vault e ck0)) as NK.
    { intros E. apply (ok_holder_inj e OK) in E. apply (ok_vault_inj e OK) in E. auto. }
    destruct (dat (get w (e_holder e (e_vault e ck)))) eqn:D1;
    destruct (dat (get w' (e_holder e (e_vault e ck)))) eqn:D2; auto;
    try (specialize (proj1 (C h0 NK) eq_refl); congruence); try (specialize (proj2 (C h0 NK) eq_refl); congruence).
Qed.

Lemma hupd_staked e cx a n w w' : staked_ok e cx a n w w' ->
  exists h, hupd w w' (e_holder e (e_vault e (st_config a))) h
                 (Hold (c_pool_acc cx mod U128) (h_deposited h + n)).
Proof.
  intros []. destruct (hupd_deposited _ _ _ _ _ _ _ _ _ _ _ _ H5) as (h & HV & U). exists h.
  rewrite <- Hvp, <- HV. eapply hupd_before; [|exact U].
  apply hframe_trans with w1; [eapply hframe_harvest; eauto|].
  apply hframe_trans with w2; [rewrite H2; eapply hframe_put_del; eauto|].
  apply hframe_trans with w3; [eapply hframe_resync; eauto|]. eapply hframe_transferred; eauto.
Qed.
Lemma hupd_unstaked e cx a n w w' : unstaked_ok e cx a n w w' ->
  exists h last, (last = c_pool_acc cx mod U128 \/ last = h_last h) /\ withdraw_amount h n <= h_deposited h /\
    hupd w w' (e_holder e (e_vault e (un_config a))) h (Hold last (h_deposited h - withdraw_amount h n)).
Proof.
  intros []. destruct (hupd_withdrawn _ _ _ _ _ _ _ _ _ _ _ _ H4) as (h & last & HV & L & WA & U). exists h, last.
  split; [auto|]. split; [auto|]. rewrite <- Hvp, <- HV.
  apply hupd_after with w4; [|eapply hframe_transferred; eauto]. eapply hupd_before; [|exact U].
  apply hframe_trans with w1; [eapply hframe_harvest; eauto|].
  apply hframe_trans with w2; [rewrite H2; eapply hframe_put_del; eauto|]. eapply hframe_resync; eauto.
Qed.
Lemma hupd_held e cx a w w' : env_ok e -> sane e w -> held_ok e cx a w w' ->
  exists h, hupd w w' (e_holder e (e_vault e (hh_config a))) h (Hold (c_pool_acc cx mod U128) (h_deposited h)).
Proof.
  intros OK S []. destruct (hupd_rharvested _ _ _ _ _ _ _ _ _ _ H2) as (h & HV & U). exists h.
  rewrite (vault_auth_eq _ _ _ _ _ OK S (conj Hco Hc0) Hva) in HV. rewrite <- HV.
  eapply hupd_before; [eapply hframe_synced; eauto|]. eapply hupd_after; [exact U|].
  apply hframe_trans with w3; [apply hframe_same; intros k; rewrite H3; now ws|].
  rewrite H4. apply hframe_setd; [intros ?; discriminate|]. rewrite H3. ws. rewrite Hc. intros ?; discriminate.
Qed.

(** The calls that rewrite a holder account. *)
Definition holds (c : call) : bool :=
  match c with
  | CValidatorStakeTokens _ _ | CSolStakerStakeTokens _ _ | CUnstakeTokens _ _ | CHarvestHolderRewards _ => true
  | _ => false
  end.
Lemma hframe_did e cx w w' c : env_ok e -> sane e w -> did e cx w w' c -> holds c = false -> hframe w w'.
Proof.
  intros OK S D. destruct D; intros HC; try discriminate.
  - destruct (config_created_facts _ _ _ _ _ _ _ _ _ _ _ OK S H) as (bs & D & _). destruct H.
    intros k h. rewrite Hd. destruct (N.eqb_spec (ic_config a) k) as [<-|]; [|tauto]. split; [discriminate|congruence].
  - destruct H. intros k h. rewrite Hd. destruct (N.eqb_spec (iv_stake a) k) as [<-|]; [|tauto].
    split; [discriminate|congruence].
  - destruct H. eapply hframe_harvest; eauto.
  - destruct H. eapply hframe_slashed; eauto.
  - destruct H. subst w'. apply hframe_setd; [intros ?; discriminate|]. rewrite Hc. intros ?; discriminate.
  - destruct H. subst w'. apply hframe_setd; [intros ?; discriminate|]. rewrite Hc. intros ?; discriminate.
  - destruct H. intros k h. rewrite Hd. destruct (N.eqb_spec (is_val a) k) as [<-|]; [split; [discriminate|congruence]|].
    destruct (N.eqb_spec (is_stake a) k) as [<-|]; [split; [discriminate|congruence]|tauto].
  - eapply hframe_harvested_sol; eauto.
  - destruct H. eapply hframe_slashed; eauto.
  - eapply hframe_moved; eauto.
  - eapply hframe_overridden; eauto.
  - destruct H. subst w'. eapply hframe_put_del. rewrite Hv. reflexivity.
Qed.

(** What is unstaked was deposited. *)
Lemma deposit_did e cx w w' c ck : env_ok e -> sane e w -> wf_world w ->
  sum_of e w ck staked <= deposit e w ck -> did e cx w w' c ->
  deposit e w' ck + stake_removed c ck = deposit e w ck + stake_added w c ck.
Proof.
  intros OK S WF LE D. destruct (holds c) eqn:HC.
  2: { rewrite (deposit_hframe e w w') by (eapply hframe_did; eauto).
       destruct c; simpl in *; try discriminate; lia. }
  destruct D; simpl in HC; try discriminate.
  - destruct H as [c0 ? ? ? ? H]. destruct (hupd_staked _ _ _ _ _ _ H) as (h & U).
    pose proof (deposit_hupd _ _ _ _ ck _ _ OK U) as X. simpl in *. destruct (ck =? st_config a); lia.
  - destruct (hupd_held _ _ _ _ _ OK S H) as (h & U).
    pose proof (deposit_hupd _ _ _ _ ck _ _ OK U) as X. simpl in *. destruct (ck =? hh_config a); lia.
  - destruct H as [c0 ? ? ? ? H]. destruct (hupd_staked _ _ _ _ _ _ H) as (h & U).
    pose proof (deposit_hupd _ _ _ _ ck _ _ OK U) as X. simpl in *. destruct (ck =? st_config a); lia.
  - destruct (hupd_unstaked _ _ _ _ _ _ H) as (h & last & _ & WA & U).
    pose proof (deposit_hupd _ _ _ _ ck _ _ OK U) as X. simpl in *.
    destruct (N.eqb_spec ck (un_config a)) as [->|]; [|lia].
    assert (deposit e w (un_config a) = h_deposited h) as DE. { unfold deposit. destruct U as (-> & _). auto. }
    assert (h_deposited h < U64) as HB.
    { destruct U as (E & _). pose proof (wf_dat w (e_holder e (e_vault e (un_config a))) WF) as Y. rewrite E in Y. apply Y. }
    assert (n <= h_deposited h) as NB.
    { rewrite <- DE. etransitivity; [|exact LE]. destruct H.
      destruct (sframe_harvest _ _ _ _ _ _ _ _ _ H1) as [_ SF]. specialize (SF _ Hso).
      rewrite (stk_del _ _ Hd), (stk_del _ _ Hd0) in SF. injection SF as SF _.
      rewrite SF in Ham. etransitivity; [exact Ham|]. apply (sum_of_ge e w (un_config a) staked (un_stake a)).
      apply stake_of_intro; auto. }
    unfold withdraw_amount in *. destruct (N.eqb_spec n (U64 - 1)) as [->|]; lia.
Qed.

Lemma deposit_rely e w w' ck : rely e w w' -> deposit e w' ck = deposit e w ck.
Proof.
  intros R. unfold deposit. destruct (rely_holder _ _ _ R ck) as [[_ ->]|[A B]]; auto.
  destruct (dat (get w (e_holder e (e_vault e ck)))) eqn:D1; try (exfalso; eapply A; eauto; fail);
  destruct (dat (get w' (e_holder e (e_vault e ck)))) eqn:D2; auto; try (rewrite (B h eq_refl); auto).
Qed.
