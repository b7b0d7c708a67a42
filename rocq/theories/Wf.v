(** Invariant, part 2: every stored integer stays in the range of its field. *)
From Verif Require Import Base Types Layout Instr Math External Processor Runtime History Spec
  WorldLemmas Effects Handlers Evolve.

Lemma wf_del_of d x : wf_data d -> del_of d = Ok x -> wf_del x.
Proof. destruct d; simpl; intros H [= <-]; tauto. Qed.
Lemma wf_upd_del d x y : wf_data d -> del_of d = Ok x -> wf_del y -> wf_data (upd_del d y).
Proof. destruct d; simpl; intros H [= <-]; tauto. Qed.
Lemma wadd128_lt a b : wadd128 a b < U128.
Proof. unfold wadd128. apply N.mod_lt. lia. Qed.

Lemma wf_lam w k : wf_world w -> lam (get w k) < U64.
Proof. intros H. apply H. Qed.
Lemma wf_dat w k : wf_world w -> wf_data (dat (get w k)).
Proof. intros H. apply H. Qed.

Lemma wf_harvest e w ck vhr auth va sk keeper w' : wf_world w ->
  harvested e w ck vhr auth va sk keeper w' -> wf_world w'.
Proof.
  intros W H. pose proof (harvested_sk _ _ _ _ _ _ _ _ _ H) as NS. destruct H. intros k.
  pose proof (wf_lam w ck W) as LC. pose proof (wf_lam w k W) as LK.
  split.
  - rewrite Hlams. unfold paid_lam. destruct (N.eqb_spec auth k); [exact Hkb|].
    destruct (N.eqb_spec ck k); [lia|]. unfold keeper_lam in *. destruct keeper as [x|]; [|auto].
    destruct (N.eqb_spec x k); [subst; exact Hkk|auto].
  - rewrite Hdat. destruct (N.eqb_spec ck k) as [<-|NE].
    + pose proof (wf_dat w ck W) as WC. rewrite Hc in WC. simpl in *.
      pose proof (wadd128_lt (cfg_acc c) rpt). intuition lia.
    + destruct (N.eqb_spec sk k) as [<-|]; [|apply wf_dat; auto].
      pose proof (wf_dat w sk W) as WS. pose proof (wf_del_of _ _ WS Hd) as WD.
      eapply wf_upd_del; eauto. unfold wf_del in *. simpl.
      pose proof (wf_dat w vhr W) as WH. rewrite Hh in WH. simpl in WH.
      pose proof (wadd128_lt (cfg_acc c) rpt). intuition lia.
Qed.
Lemma wf_resync w ck sk lim w' : wf_world w -> resynced w ck sk lim w' -> wf_world w'.
Proof.
  intros W [] k. split; [rewrite Hlams; apply wf_lam; auto|].
  rewrite Hdat. destruct (N.eqb_spec ck k) as [<-|NE].
  - pose proof (wf_dat w ck W) as WC. rewrite Hc in WC. simpl in *. intuition lia.
  - destruct (N.eqb_spec sk k) as [<-|]; [|apply wf_dat; auto].
    pose proof (wf_dat w sk W) as WS. pose proof (wf_del_of _ _ WS Hd) as WD.
    eapply wf_upd_del; eauto. unfold wf_del in *. simpl. intuition lia.
Qed.
Lemma wf_setd w k d : wf_world w -> wf_data d -> wf_world (setd w k d).
Proof.
  intros W D k'. split; ws; [apply wf_lam; auto|]. destruct (N.eqb_spec k k'); [auto|apply wf_dat; auto].
Qed.
Lemma wf_put_del w k x y : wf_world w -> del_of (dat (get w k)) = Ok x -> wf_del y ->
  wf_world (put_del w k y).
Proof. intros W D Y. apply wf_setd; auto. eapply wf_upd_del; eauto. apply wf_dat; auto. Qed.
Lemma wf_setl w k n : wf_world w -> n < U64 -> wf_world (setl w k n).
Proof.
  intros W D k'. split; ws; [|apply wf_dat; auto]. destruct (N.eqb_spec k k'); [auto|apply wf_lam; auto].
Qed.
Lemma wf_del_at w k x : wf_world w -> del_of (dat (get w k)) = Ok x -> wf_del x.
Proof. intros W. apply wf_del_of. apply wf_dat; auto. Qed.
Lemma wf_synced w ck w' : wf_world w -> synced_cfg w ck w' -> wf_world w'.
Proof.
  intros W []. subst w'. apply wf_setd; auto. pose proof (wf_dat w ck W) as WC. rewrite Hc in WC.
  pose proof (wf_lam w ck W). simpl in *. pose proof (wadd128_lt (cfg_acc c) rpt). intuition lia.
Qed.
Lemma wf_transferred e sig w src mnt dst auth amount w' : wf_world w ->
  transferred e sig w src mnt dst auth amount w' -> wf_world w'.
Proof.
  intros W [] k. split; [rewrite Hl; apply wf_lam; auto|]. rewrite Hdat.
  destruct (N.eqb_spec src dst) as [|NE]; [apply wf_dat; auto|].
  pose proof (wf_dat w src W) as WS. rewrite Hs in WS. simpl in WS.
  destruct (N.eqb_spec src k); [simpl; lia|]. destruct (N.eqb_spec dst k); [simpl; auto|apply wf_dat; auto].
Qed.
Lemma wf_burned e sig w src mnt auth amount w' : wf_world w ->
  burned e sig w src mnt auth amount w' -> wf_world w'.
Proof.
  intros W [] k. split; [rewrite Hl; apply wf_lam; auto|]. rewrite Hdat.
  pose proof (wf_dat w src W) as WS. rewrite Hs in WS. simpl in WS.
  pose proof (wf_dat w mnt W) as WM. rewrite Hm in WM. simpl in WM.
  destruct (N.eqb_spec src k); [simpl; lia|]. destruct (N.eqb_spec mnt k); [simpl; lia|apply wf_dat; auto].
Qed.
Lemma wf_pay_lam w pool owner r k : wf_world w -> r <= lam (get w pool) ->
  (r <> 0 -> pay_lam w pool owner r owner < U64) -> pay_lam w pool owner r k < U64.
Proof.
  intros W L B. pose proof (wf_lam w k W). pose proof (wf_lam w pool W). unfold pay_lam in *.
  destruct (N.eqb_spec r 0); [auto|]. specialize (B ltac:(auto)). rewrite N.eqb_refl in B.
  destruct (N.eqb_spec owner k); [auto|]. destruct (N.eqb_spec pool k); lia.
Qed.
Lemma wf_rharvested e sig w pool ptok vhr mnt owner acc w' : wf_world w -> acc < U128 ->
  rharvested e sig w pool ptok vhr mnt owner acc w' -> wf_world w'.
Proof.
  intros W A [] k. split; [rewrite Hl; apply wf_pay_lam; auto|]. rewrite Hdat.
  destruct (N.eqb_spec vhr k); [|apply wf_dat; auto].
  pose proof (wf_dat w vhr W) as WS. rewrite Hh in WS. simpl in *. lia.
Qed.
Lemma wf_deposited e sig w pool ptok vhr tacc mnt owner amount acc w' : wf_world w -> acc < U128 ->
  deposited_ok e sig w pool ptok vhr tacc mnt owner amount acc w' -> wf_world w'.
Proof.
  intros W A [].
  assert (wf_world w1) as W1 by (subst w1; apply wf_setd; simpl; auto).
  pose proof (wf_transferred _ _ _ _ _ _ _ _ _ W1 Hw2) as W2. intros k.
  split; [rewrite Hl; apply wf_pay_lam; auto|]. rewrite Hdat. apply wf_dat; auto.
Qed.
Lemma wf_withdrawn e sig w pool ptok vhr tacc mnt owner amount acc w' : wf_world w -> acc < U128 ->
  withdrawn_ok e sig w pool ptok vhr tacc mnt owner amount acc w' -> wf_world w'.
Proof.
  intros W A [].
  pose proof (wf_dat w vhr W) as WS. rewrite Hh in WS. simpl in WS.
  assert (last < U128) as L by (destruct Hcase as [[_ ->]|[_ ->]]; lia).
  assert (wf_world w1) as W1 by (subst w1; apply wf_setd; simpl; [auto|lia]).
  pose proof (wf_transferred _ _ _ _ _ _ _ _ _ W1 Hw2) as W2. intros k.
  split; [rewrite Hl; apply wf_pay_lam; auto|]. rewrite Hdat. apply wf_dat; auto.
Qed.

Lemma pool_acc_lt cx : c_pool_acc cx mod U128 < U128.
Proof. apply N.mod_lt. lia. Qed.

Lemma wf_staked e cx a n w w' : wf_world w -> staked_ok e cx a n w w' -> wf_world w'.
Proof.
  intros W [].
  refine (wf_deposited _ _ _ _ _ _ _ _ _ _ _ _ _ (pool_acc_lt cx) H5).
  eapply wf_transferred; [|eassumption]. eapply wf_resync; [|eassumption]. rewrite H2.
  assert (wf_world w1) as W1 by (eapply wf_harvest; [|eassumption]; auto).
  eapply wf_put_del; eauto. pose proof (wf_del_at _ _ _ W1 Hd) as D. unfold wf_del in *. simpl. tauto.
Qed.
Lemma sat_add64_lt a b : sat_add64 a b < U64.
Proof. unfold sat_add64. lia. Qed.
Lemma wf_unstaked e cx a n w w' : wf_world w -> unstaked_ok e cx a n w w' -> wf_world w'.
Proof.
  intros W [].
  eapply wf_transferred; [|eassumption].
  refine (wf_withdrawn _ _ _ _ _ _ _ _ _ _ _ _ _ (pool_acc_lt cx) H4).
  eapply wf_resync; [|eassumption]. rewrite H2.
  assert (wf_world w1) as W1 by (eapply wf_harvest; [|eassumption]; auto).
  eapply wf_put_del; eauto. pose proof (wf_del_at _ _ _ W1 Hd) as D. unfold wf_del in *. simpl.
  pose proof (sat_add64_lt (c_now cx) (cfg_cooldown c)). intuition lia.
Qed.
Lemma wf_slashed e cx a n w w' : wf_world w -> slashed_ok e cx a n w w' -> wf_world w'.
Proof.
  intros W [].
  eapply wf_resync; [|eassumption].
  assert (wf_world w1) as W1 by (eapply wf_harvest; [|eassumption]; auto).
  assert (wf_world w2) as W2.
  { rewrite H2. eapply wf_put_del; eauto. pose proof (wf_del_at _ _ _ W1 Hd) as D.
    unfold wf_del in *. simpl. intuition lia. }
  destruct H3 as [[_ ->]|(_ & _ & H3)]; auto. eapply wf_burned; [|eassumption]; auto.
Qed.
Lemma wf_moved e cx a n w w' : wf_world w -> moved_ok e cx a n w w' -> wf_world w'.
Proof.
  intros W [].
  assert (wf_world w1) as W1 by (eapply wf_harvest; [|eassumption]; auto).
  assert (wf_world w2) as W2 by (eapply wf_harvest; [|eassumption]; auto).
  pose proof (wf_dat w2 (mv_source a) W2) as WS. rewrite Hs in WS.
  pose proof (wf_dat w2 (mv_dest a) W2) as WT. rewrite Ht in WT.
  eapply wf_resync; [|eassumption]. eapply wf_resync; [|eassumption].
  assert (wf_world w3) as W3.
  { subst w3. eapply wf_put_del; [auto|rewrite Hs; reflexivity|].
    simpl in WS. unfold wf_del in *. simpl. intuition lia. }
  subst w4. eapply wf_put_del; [auto| |].
  - subst w3. ws. destruct (N.eqb_spec (mv_source a) (mv_dest a)); [congruence|]. rewrite Ht. reflexivity.
  - simpl in WS, WT. unfold wf_del in *. simpl. intuition lia.
Qed.
Lemma wf_revalidated e w ck vhr vs vk vauth f w' : wf_world w ->
  (forall t t', t < U64 -> f t = Ok t' -> t' < U64) ->
  revalidated e w ck vhr vs vk vauth f w' -> wf_world w'.
Proof.
  intros W F [].
  assert (wf_world w1) as W1 by (eapply wf_harvest; [|eassumption]; auto).
  pose proof (wf_dat w1 vk W1) as WV. rewrite Hv in WV. simpl in WV.
  eapply wf_resync; [|eassumption]. rewrite H2. apply wf_setd; auto. simpl.
  split; [tauto|]. split; [eapply F; eauto; tauto|tauto].
Qed.
Lemma wf_left e w a s w' : wf_world w -> left_ok e w a s w' -> wf_world w'.
Proof.
  intros W []; [|subst; auto]. refine (wf_revalidated _ _ _ _ _ _ _ _ _ W _ H).
  intros t t' T H1. apply csub_ok in H1 as [? ->]. lia.
Qed.
Lemma wf_joined e w a cv cs w' cv' cs' : wf_world w -> joined_ok e w a cv cs w' cv' cs' -> wf_world w'.
Proof.
  intros W []; [|subst; auto|subst; auto]. refine (wf_revalidated _ _ _ _ _ _ _ _ _ W _ H).
  intros t t' T H1. apply add64_ok in H1 as [-> ?]. lia.
Qed.
Lemma wf_harvested_sol e cx a w w' : wf_ctx e cx -> wf_world w -> harvested_sol_ok e cx a w w' -> wf_world w'.
Proof.
  intros CX W [].
  - eapply wf_harvest; [|eassumption]; auto.
  - assert (wf_world w1) as W1 by (eapply wf_harvest; [|eassumption]; auto).
    assert (wf_world w2) as W2 by (eapply wf_left; [|eassumption]; auto).
    assert (wf_world w3) as W3 by (eapply wf_joined; [|eassumption]; auto).
    eapply wf_resync; [|eassumption]. subst w4. apply wf_setd; auto.
    pose proof (wf_dat w3 (hs_stake a) W3) as WS. rewrite Hs3 in WS. simpl in *.
    split; [unfold wf_del in *; simpl; tauto|].
    destruct CX as (_ & _ & CX). specialize (CX vw Hvw).
    destruct H3; subst cs; lia.
Qed.
Lemma wf_held e cx a w w' : wf_world w -> held_ok e cx a w w' -> wf_world w'.
Proof.
  intros W [].
  assert (wf_world w1) as W1 by (eapply wf_synced; [|eassumption]; auto).
  assert (wf_world w2) as W2 by (refine (wf_rharvested _ _ _ _ _ _ _ _ _ _ W1 (pool_acc_lt cx) H2)).
  assert (lam (get w2 (hh_vault_pda a)) < U64) as LV by (apply wf_lam; auto).
  assert (wf_world w3) as W3.
  { rewrite H3. apply wf_setl. { apply wf_setl; auto. lia. }
    rewrite H3 in Hov. rewrite lam_setl, N.eqb_refl in Hov. exact Hov. }
  rewrite H4. apply wf_setd; auto.
  pose proof (wf_dat w2 (hh_config a) W2) as WC. rewrite Hc in WC. simpl in *. intuition lia.
Qed.

Lemma wf_did e cx w w' c : env_ok e -> wf_ctx e cx -> wf_call c -> wf_world w -> did e cx w w' c -> wf_world w'.
Proof.
  intros OK CX CL W D. revert CL. destruct D; intros CL; simpl in CL.
  - destruct H. intros k. split; [rewrite Hl; apply wf_lam; auto|].
    rewrite Hd. destruct (N.eqb_spec (ic_config a) k); [|apply wf_dat; auto].
    pose proof (wf_lam w (ic_config a) W). pose proof (ok_bump_range e OK (ic_config a)). simpl.
    destruct CL as (? & ? & ?). repeat split; auto; lia.
  - destruct H. intros k. split; [rewrite Hl; apply wf_lam; auto|].
    rewrite Hd. destruct (N.eqb_spec (iv_stake a) k); [|apply wf_dat; auto].
    simpl. unfold wf_del. simpl. lia.
  - destruct H. eapply wf_staked; [|eassumption]; auto.
  - eapply wf_held; [|eassumption]; auto.
  - destruct H. eapply wf_harvest; [|eassumption]; auto.
  - destruct H. eapply wf_slashed; [|eassumption]; auto.
  - destruct H. subst w'. apply wf_setd; auto. pose proof (wf_dat w (sa_account a) W) as WC.
    rewrite Hc in WC. destruct t; simpl in *; auto.
  - destruct H. subst w'. apply wf_setd; auto. pose proof (wf_dat w (uc_config a) W) as WC.
    rewrite Hc in WC. destruct f; simpl in *; tauto.
  - destruct H. intros k. split; [rewrite Hl; apply wf_lam; auto|].
    destruct CX as (_ & _ & CX). specialize (CX vw Hvw).
    pose proof (wf_dat w (is_val a) W) as WV. rewrite Hv in WV.
    rewrite Hd. destruct (N.eqb_spec (is_val a) k); [simpl in *; tauto|].
    destruct (N.eqb_spec (is_stake a) k); [|apply wf_dat; auto].
    simpl. unfold wf_del. simpl. lia.
  - destruct H. eapply wf_staked; [|eassumption]; auto.
  - eapply wf_harvested_sol; [| |eassumption]; auto.
  - eapply wf_unstaked; [|eassumption]; auto.
  - destruct H. eapply wf_slashed; [|eassumption]; auto.
  - eapply wf_moved; [|eassumption]; auto.
  - destruct H.
    assert (wf_world w1) as W1 by (eapply wf_harvest; [|eassumption]; auto).
    eapply wf_resync; [|eassumption]. subst w2. apply wf_setd; auto.
    pose proof (wf_dat w1 (ov_stake a) W1) as WC. rewrite Hv in WC. simpl in *. tauto.
  - destruct H. subst w'. eapply wf_put_del; [auto|rewrite Hv; reflexivity|].
    pose proof (wf_dat w (sy_stake a) W) as WC. rewrite Hv in WC. simpl in WC. unfold wf_del in *. simpl. tauto.
Qed.
