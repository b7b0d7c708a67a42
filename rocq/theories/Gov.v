(** What governance controls - the authorities and parameters of a config, the
    minimum and authority of a validator stake - is left alone by all other
    instructions. *)
From Verif Require Import Base Types Layout Instr Math External Processor Runtime History Spec
  WorldLemmas Effects Handlers Evolve Sane Wf Totals Nets Caps Stakers Deposits Inv.

Inductive governed :=
| GConfig (authority slash cooldown bps sync : N)
| GVal (minimum authority : N)
| GSol (authority : N)
| GNone.
Definition terms (D : adata) : governed :=
  match D with
  | DConfig c => GConfig (cfg_authority c) (cfg_slash c) (cfg_cooldown c) (cfg_bps c) (cfg_sync c)
  | DVal v => GVal (v_min v) (authority (v_del v))
  | DSol s => GSol (authority (s_del s))
  | _ => GNone
  end.
Definition gframe (e : env) (w w' : world) : Prop :=
  (forall k, own (get w' k) = own (get w k)) /\
  (forall k, own (get w k) = e_prog e -> terms (dat (get w' k)) = terms (dat (get w k))).
Lemma gframe_refl e w : gframe e w w.
Proof. split; auto. Qed.
Lemma gframe_trans e w1 w2 w3 : gframe e w1 w2 -> gframe e w2 w3 -> gframe e w1 w3.
Proof.
  intros [A1 A2] [B1 B2]. split.
  - intros k. rewrite B1. auto.
  - intros k O. rewrite B2; [auto|]. now rewrite A1.
Qed.
Lemma gov_upd D x y : del_of D = Ok x -> authority y = authority x -> terms (upd_del D y) = terms D.
Proof. intros H A. destruct D; try discriminate; injection H as <-; simpl; congruence. Qed.
Lemma gov_with_del g D : (forall d, authority (g d) = authority d) -> terms (with_del g D) = terms D.
Proof.
  intros A. unfold with_del. destruct (del_of D) as [d| |] eqn:E; auto. eapply gov_upd; eauto.
Qed.
Lemma gframe_harvest e w ck vhr auth va sk keeper w' :
  harvested e w ck vhr auth va sk keeper w' -> gframe e w w'.
Proof.
  intros H. destruct (harvested_net _ _ _ _ _ _ _ _ _ H)
    as (c & d & h & rpt & sr & hr & RD & _ & _ & O1 & _ & C1 & S1 & X1). split; [auto|].
  intros k O. destruct (N.eq_dec k ck) as [->|N1]; [rewrite C1, (rd_c _ _ _ _ _ _ _ _ _ _ _ RD); auto|].
  destruct (N.eq_dec k sk) as [->|N2]; [rewrite S1; apply gov_with_del; auto|]. rewrite X1; auto.
Qed.
Lemma gframe_resync e w ck sk lim w' : resynced w ck sk lim w' -> gframe e w w'.
Proof.
  intros []. split; [auto|]. intros k O. rewrite Hdat. destruct (N.eqb_spec ck k) as [<-|]; [now rewrite Hc|].
  destruct (N.eqb_spec sk k) as [<-|]; auto. now apply (gov_upd _ _ _ Hd).
Qed.
Lemma gframe_setd e w k D : terms D = terms (dat (get w k)) -> gframe e w (setd w k D).
Proof. intros T. split; intros; ws; auto. destruct (N.eqb_spec k k0) as [<-|]; auto. Qed.
Lemma gframe_put_del e w k x y : del_of (dat (get w k)) = Ok x -> authority y = authority x ->
  gframe e w (put_del w k y).
Proof. intros H A. apply gframe_setd. eapply gov_upd; eauto. Qed.
Lemma gframe_pframe e w w' : pframe e w w' -> gframe e w w'.
Proof. intros [A B]. split; auto. intros k O. now rewrite B. Qed.
Lemma gframe_chained e w ck va sk F lim w' : chained e w ck va sk F lim w' ->
  (forall D, terms (F D) = terms D) -> gframe e w w'.
Proof.
  intros [] HF. split; [auto|]. intros k O. destruct (N.eq_dec k ck) as [->|N1].
  { rewrite Hck, (rd_c _ _ _ _ _ _ _ _ _ _ _ Hrd). auto. }
  destruct (N.eq_dec k sk) as [->|N2]; [|rewrite Hoth; auto].
  rewrite Hsk, (gov_upd _ _ _ Hd2), HD2, HF; [apply gov_with_del|]; auto.
Qed.
Lemma gframe_revalidated e w ck vhr vs vk vauth f w' : revalidated e w ck vhr vs vk vauth f w' -> gframe e w w'.
Proof.
  intros []. apply gframe_trans with w1; [eapply gframe_harvest; eauto|].
  apply gframe_trans with w2; [|eapply gframe_resync; eauto]. rewrite H2. apply gframe_setd. now rewrite Hv.
Qed.
Lemma gframe_left e w a s w' : left_ok e w a s w' -> gframe e w w'.
Proof. intros []; [eapply gframe_revalidated; eauto|]. rewrite Hw. apply gframe_refl. Qed.
Lemma gframe_joined e w a cv cs w' cv' cs' : joined_ok e w a cv cs w' cv' cs' -> gframe e w w'.
Proof. intros []; [eapply gframe_revalidated; eauto| |]; rewrite Hw; apply gframe_refl. Qed.
Lemma gframe_harvested_sol e cx a w w' : harvested_sol_ok e cx a w w' -> gframe e w w'.
Proof.
  intros []; [eapply gframe_harvest; eauto|].
  apply gframe_trans with w1; [eapply gframe_harvest; eauto|].
  apply gframe_trans with w2; [eapply gframe_left; eauto|].
  apply gframe_trans with w3; [eapply gframe_joined; eauto|].
  apply gframe_trans with w4; [|eapply gframe_resync; eauto]. rewrite H4. apply gframe_setd. now rewrite Hs3.
Qed.
Lemma gframe_moved e cx a n w w' : moved_ok e cx a n w w' -> gframe e w w'.
Proof.
  intros []. apply gframe_trans with w1; [eapply gframe_harvest; eauto|].
  apply gframe_trans with w2; [eapply gframe_harvest; eauto|].
  assert (dat (get w3 (mv_dest a)) = DSol t) as T3.
  { rewrite H3. ws. destruct (N.eqb_spec (mv_source a) (mv_dest a)); [congruence|auto]. }
  apply gframe_trans with w3.
  { rewrite H3. apply gframe_put_del with (s_del s); [now rewrite Hs|reflexivity]. }
  apply gframe_trans with w4.
  { rewrite H4. apply gframe_put_del with (s_del t); [now rewrite T3|reflexivity]. }
  apply gframe_trans with w5; eapply gframe_resync; eauto.
Qed.
Lemma gframe_held e cx a w w' : env_ok e -> held_ok e cx a w w' -> gframe e w w'.
Proof.
  intros OK H. pose proof (evolves_held _ _ _ _ _ OK H) as EV. destruct H.
  pose proof (pframe_rharvested _ _ _ _ _ _ _ _ _ _ OK H2) as [PO PD].
  destruct H1 as [c1 rpt Hc1 _ _ Hw1]. split; [apply (ev_own _ _ _ EV)|]. intros k O. rewrite H4. ws.
  destruct (N.eqb_spec (hh_config a) k) as [<-|NE].
  - rewrite PD in Hc by (rewrite Hw1; ws; auto). rewrite Hw1 in Hc. wsi Hc. rewrite N.eqb_refl in Hc.
    injection Hc as <-. now rewrite Hc1.
  - rewrite H3. ws. rewrite PD; rewrite Hw1; ws; auto. destruct (N.eqb_spec (hh_config a) k); [congruence|auto].
Qed.
Definition governs (c : call) : bool :=
  match c with
  | CSetAuthority _ _ | CUpdateConfig _ _ | CValidatorOverride _ _ | CValidatorSyncAuthority _ => true
  | _ => false
  end.
Lemma gframe_did e cx w w' c : env_ok e -> did e cx w w' c -> creates c = false -> governs c = false ->
  gframe e w w'.
Proof.
  intros OK D C G. revert C G. destruct D; intros C G; try discriminate.
  - eapply gframe_chained; [eapply staked_net; eauto|]. intros D. now apply gov_with_del.
  - eapply gframe_held; eauto.
  - destruct H. eapply gframe_harvest; eauto.
  - eapply gframe_chained; [eapply slashed_net; eauto|]. intros D. now apply gov_with_del.
  - eapply gframe_chained; [eapply staked_net; eauto|]. intros D. now apply gov_with_del.
  - eapply gframe_harvested_sol; eauto.
  - destruct (unstaked_net _ _ _ _ _ _ OK H) as (c & _ & CH). eapply gframe_chained; eauto.
    intros D. now apply gov_with_del.
  - eapply gframe_chained; [eapply slashed_net; eauto|]. intros D. now apply gov_with_del.
  - eapply gframe_moved; eauto.
Qed.
(** Creating accounts leaves the existing ones as they are. *)
Lemma gov_created e cx w w' c k : env_ok e -> sane e w -> did e cx w w' c -> creates c = true ->
  own (get w k) = e_prog e -> terms (dat (get w k)) <> GNone -> terms (dat (get w' k)) = terms (dat (get w k)).
Proof.
  intros OK S D C. revert C. destruct D; intros C O G; try discriminate.
  - destruct (config_created_facts _ _ _ _ _ _ _ _ _ _ _ OK S H) as (bs & R & _). destruct H. rewrite Hd.
    destruct (N.eqb_spec (ic_config a) k) as [<-|]; auto. rewrite R in G. now destruct G.
  - destruct H. rewrite Hd. destruct (N.eqb_spec (iv_stake a) k) as [<-|]; auto. rewrite Hsd in G. now destruct G.
  - destruct H. rewrite Hd. destruct (N.eqb_spec (is_val a) k) as [<-|]; [now rewrite Hv|].
    destruct (N.eqb_spec (is_stake a) k) as [<-|]; auto. rewrite Hsd in G. now destruct G.
Qed.
(** An override changes the minimum of the named validator stake only. *)
Lemma gov_overridden e cx a n w w' : overridden_ok e cx a n w w' ->
  (forall k, k <> ov_stake a -> own (get w k) = e_prog e -> terms (dat (get w' k)) = terms (dat (get w k))) /\
  exists v v', dat (get w (ov_stake a)) = DVal v /\ dat (get w' (ov_stake a)) = DVal v' /\
    v_min v' = n /\ authority (v_del v') = authority (v_del v).
Proof.
  intros H. pose proof (overridden_net _ _ _ _ _ _ H) as (v & Dv & []). split.
  - intros k NE O. destruct (N.eq_dec k (ov_config a)) as [->|N1]; [|rewrite Hoth; auto].
    rewrite Hck, (rd_c _ _ _ _ _ _ _ _ _ _ _ Hrd). auto.
  - rewrite Dv in HD2. simpl in HD2. subst D2. injection Hd2 as <-. rewrite Hsk. eexists _, _. split; [exact Dv|].
    split; [reflexivity|]. auto.
Qed.
