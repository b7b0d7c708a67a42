(** Which accounts each internal step may change. *)
From Verif Require Import Base Types Layout Instr Math External Processor Runtime History Spec
  WorldLemmas Effects Handlers Declared.

(** Only the accounts in [ks] differ. *)
Definition touches (ks : list pubkey) (w w' : world) : Prop := forall k, ~ In k ks -> get w' k = get w k.

Lemma account_ext a b : lam a = lam b -> own a = own b -> dat a = dat b -> a = b.
Proof. destruct a, b; simpl; congruence. Qed.
Lemma touches_refl ks w : touches ks w w.
Proof. intros k _. reflexivity. Qed.
Lemma touches_trans ks w w1 w2 : touches ks w w1 -> touches ks w1 w2 -> touches ks w w2.
Proof. intros A B k I. rewrite B, A; auto. Qed.
Lemma touches_incl ks ks' w w' : incl ks ks' -> touches ks w w' -> touches ks' w w'.
Proof. intros I A k J. apply A. auto. Qed.
Lemma eqb_no k k' l : ~ In k (k' :: l) -> (k' =? k) = false.
Proof. intros H. apply N.eqb_neq. intros ->. apply H. now left. Qed.
Lemma touches_setd w k d : touches [k] w (setd w k d).
Proof. intros k' I. unfold setd. rewrite get_put. now rewrite (eqb_no _ _ _ I). Qed.
Lemma touches_setl w k d : touches [k] w (setl w k d).
Proof. intros k' I. unfold setl. rewrite get_put. now rewrite (eqb_no _ _ _ I). Qed.
Lemma touches_seto w k d : touches [k] w (seto w k d).
Proof. intros k' I. unfold seto. rewrite get_put. now rewrite (eqb_no _ _ _ I). Qed.
Lemma touches_put_del w k d : touches [k] w (put_del w k d).
Proof. apply touches_setd. Qed.

Definition opt_list {A} (o : option A) : list A := match o with Some x => [x] | None => [] end.
Lemma touches_synced w ck w' : synced_cfg w ck w' -> touches [ck] w w'.
Proof. intros [c rpt Hc Hl Hr ->]. apply touches_setd. Qed.
Lemma touches_harvested e w ck vhr auth va sk keeper w' :
  harvested e w ck vhr auth va sk keeper w' -> touches (ck :: sk :: auth :: opt_list keeper) w w'.
Proof.
  intros H k I. destruct H. pose proof (eqb_no _ _ _ I) as E1.
  assert (~ In k (sk :: auth :: opt_list keeper)) as I1 by (intros J; apply I; now right).
  pose proof (eqb_no _ _ _ I1) as E2.
  assert (~ In k (auth :: opt_list keeper)) as I2 by (intros J; apply I1; now right).
  pose proof (eqb_no _ _ _ I2) as E3.
  apply account_ext; [|auto|].
  - rewrite Hlams. unfold paid_lam. cbv zeta. rewrite E3, E1. unfold keeper_lam. destruct keeper as [x|]; auto.
    assert (~ In k [x]) as I3 by (intros J; apply I2; now right). now rewrite (eqb_no _ _ _ I3).
  - rewrite Hdat, E1, E2. reflexivity.
Qed.
Lemma touches_resynced w ck sk l w' : resynced w ck sk l w' -> touches [ck; sk] w w'.
Proof.
  intros [] k I. pose proof (eqb_no _ _ _ I) as E1.
  assert (~ In k [sk]) as I1 by (intros J; apply I; now right). pose proof (eqb_no _ _ _ I1) as E2.
  apply account_ext; auto. now rewrite Hdat, E1, E2.
Qed.
Lemma touches_transferred e sig w src mnt dst auth amount w' :
  transferred e sig w src mnt dst auth amount w' -> touches [src; dst] w w'.
Proof.
  intros [] k I. pose proof (eqb_no _ _ _ I) as E1.
  assert (~ In k [dst]) as I1 by (intros J; apply I; now right). pose proof (eqb_no _ _ _ I1) as E2.
  apply account_ext; auto. rewrite Hdat, E1, E2. now destruct (src =? dst).
Qed.
Lemma touches_burned e sig w src mnt auth amount w' :
  burned e sig w src mnt auth amount w' -> touches [src; mnt] w w'.
Proof.
  intros [] k I. pose proof (eqb_no _ _ _ I) as E1.
  assert (~ In k [mnt]) as I1 by (intros J; apply I; now right). pose proof (eqb_no _ _ _ I1) as E2.
  apply account_ext; auto. now rewrite Hdat, E1, E2.
Qed.
Lemma touches_rharvested e sig w pool ptok vhr mnt owner acc w' :
  rharvested e sig w pool ptok vhr mnt owner acc w' -> touches [pool; vhr; owner] w w'.
Proof.
  intros [] k I. assert (k <> pool /\ k <> vhr /\ k <> owner) as (A & B & C).
  { repeat split; intros ->; apply I; simpl; auto. }
  apply account_ext; auto.
  - rewrite Hl. now apply pay_lam_other.
  - rewrite Hdat. now rewrite (proj2 (N.eqb_neq _ _) (not_eq_sym B)).
Qed.
Lemma touches_deposited e sig w pool ptok vhr tacc mnt owner amount acc w' :
  deposited_ok e sig w pool ptok vhr tacc mnt owner amount acc w' ->
  touches [pool; ptok; vhr; tacc; owner] w w'.
Proof.
  intros [] k I. subst w1. apply touches_transferred in Hw2.
  assert (k <> pool /\ k <> owner) as (A & B) by (split; intros ->; apply I; simpl; tauto).
  assert (get w2 k = get w k) as E.
  { rewrite Hw2; [|intros J; apply I; simpl in *; tauto]. apply touches_setd. intros J. apply I. simpl in *. tauto. }
  apply account_ext; [|rewrite Ho, E; auto|rewrite Hdat, E; auto].
  rewrite Hl. now apply pay_lam_other.
Qed.
Lemma touches_withdrawn e sig w pool ptok vhr tacc mnt owner amount acc w' :
  withdrawn_ok e sig w pool ptok vhr tacc mnt owner amount acc w' ->
  touches [pool; ptok; vhr; tacc; owner] w w'.
Proof.
  intros [] k I. subst w1. apply touches_transferred in Hw2.
  assert (k <> pool /\ k <> owner) as (A & B) by (split; intros ->; apply I; simpl; tauto).
  assert (get w2 k = get w k) as E.
  { rewrite Hw2; [|intros J; apply I; simpl in *; tauto]. apply touches_setd. intros J. apply I. simpl in *. tauto. }
  apply account_ext; [|rewrite Ho, E; auto|rewrite Hdat, E; auto].
  rewrite Hl. now apply pay_lam_other.
Qed.

(** The accounts each call may change. *)
Definition changes (c : call) : list pubkey :=
  match c with
  | CInitializeConfig a _ _ _ _ _ _ => [ic_config a; ic_vault_pda a]
  | CInitializeValidatorStake a => [iv_stake a]
  | CValidatorStakeTokens a _ | CSolStakerStakeTokens a _ =>
      [st_config a; st_pool a; st_ptok a; st_stake a; st_authority a; st_source a; st_vault_pda a;
       st_vault a; st_vhr a]
  | CHarvestHolderRewards a => [hh_config a; hh_pool a; hh_vhr a; hh_vault_pda a]
  | CHarvestValidatorRewards a => [hv_config a; hv_stake a; hv_authority a]
  | CSlashValidatorStake a _ | CSlashSolStakerStake a _ =>
      [sl_config a; sl_stake a; sl_authority a; sl_vault a; sl_mint a]
  | CSetAuthority a _ => [sa_account a]
  | CUpdateConfig a _ => [uc_config a]
  | CInitializeSolStakerStake a => [is_stake a; is_val a]
  | CHarvestSolStakerRewards a =>
      [hs_config a; hs_stake a; hs_authority a; hs_prev a; hs_prev_auth a; hs_cur a; hs_cur_auth a]
        ++ opt_list (hs_keeper a)
  | CUnstakeTokens a _ =>
      [un_config a; un_pool a; un_ptok a; un_stake a; un_authority a; un_vault a; un_vault_pda a;
       un_vhr a; un_dest a]
  | CSolStakerMoveTokens a _ => [mv_config a; mv_authority a; mv_source a; mv_dest a]
  | CValidatorOverride a _ => [ov_config a; ov_stake a; ov_stake_auth a]
  | CValidatorSyncAuthority a => [sy_stake a]
  end.

Ltac tin := clear; let x := fresh in intros x; cbn [In opt_list app changes]; tauto.
(** Chain the steps [w -> w1 -> ... -> w'] found in the context. *)
Ltac tch :=
  match goal with
  | |- touches _ ?w ?w => apply touches_refl
  | H : ?w' = put_del _ _ _ |- touches _ _ ?w' =>
      rewrite H; eapply touches_trans; [|eapply touches_incl; [|apply touches_put_del]; tin]; clear H; tch
  | H : ?w' = setd _ _ _ |- touches _ _ ?w' =>
      rewrite H; eapply touches_trans; [|eapply touches_incl; [|apply touches_setd]; tin]; clear H; tch
  | H : harvested _ ?w1 _ _ _ _ _ _ ?w' |- touches _ _ ?w' =>
      apply touches_harvested in H; eapply touches_trans; [|eapply touches_incl; [|exact H]; tin]; clear H; tch
  | H : resynced ?w1 _ _ _ ?w' |- touches _ _ ?w' =>
      apply touches_resynced in H; eapply touches_trans; [|eapply touches_incl; [|exact H]; tin]; clear H; tch
  | H : transferred _ _ ?w1 _ _ _ _ _ ?w' |- touches _ _ ?w' =>
      apply touches_transferred in H; eapply touches_trans; [|eapply touches_incl; [|exact H]; tin]; clear H; tch
  | H : deposited_ok _ _ ?w1 _ _ _ _ _ _ _ _ ?w' |- touches _ _ ?w' =>
      apply touches_deposited in H; eapply touches_trans; [|eapply touches_incl; [|exact H]; tin]; clear H; tch
  | H : withdrawn_ok _ _ ?w1 _ _ _ _ _ _ _ _ ?w' |- touches _ _ ?w' =>
      apply touches_withdrawn in H; eapply touches_trans; [|eapply touches_incl; [|exact H]; tin]; clear H; tch
  end.

Lemma touches_revalidated e w ck vhr vs vk vauth f w' :
  revalidated e w ck vhr vs vk vauth f w' -> touches [ck; vk; vauth] w w'.
Proof. intros [v t w1 w2 H1 Hv Hf H2 H3]. tch. Qed.

Lemma touches_did e cx w w' c : did e cx w w' c -> touches (changes c) w w'.
Proof.
  intros D. destruct D as [a s au cd b sy du H|a H|a n v H _|a H|a H|a n v H _|a t H|a f H|a H|a n s H _
                          |a H|a n H|a n s H _|a n H|a n H|a H]; unfold changes.
  - destruct H. intros k I.
    assert (ic_config a <> k /\ ic_vault_pda a <> k) as (A & B) by (split; intros EE; apply I; simpl; auto).
    apply account_ext; auto; [rewrite Ho|rewrite Hd]; [rewrite (proj2 (N.eqb_neq _ _) B)|rewrite (proj2 (N.eqb_neq _ _) A)]; auto.
  - destruct H. intros k I. pose proof (eqb_no _ _ _ I) as E.
    apply account_ext; auto; [rewrite Ho|rewrite Hd]; rewrite E; auto.
  - destruct H as [c0 Hco Hc0 Hso Hbel [c d w1 w2 w3 w4 H1 Hc Hvp Hva Hpos Hd Hb H2 H3 Hu Hsum1 H4 H5]]. tch.
  - destruct H as [c0 c w1 w2 w3 Hco Hc0 Hva H1 H2 Hmin Hex H3 Hov Hc H4].
    apply touches_synced in H1. apply touches_rharvested in H2. subst w' w3.
    eapply touches_trans; [|eapply touches_incl; [|apply touches_setd]; tin].
    eapply touches_trans; [|eapply touches_incl; [|apply touches_setl]; tin].
    eapply touches_trans; [|eapply touches_incl; [|apply touches_setl]; tin].
    eapply touches_trans; [|eapply touches_incl; [|exact H2]; tin].
    eapply touches_incl; [|exact H1]; tin.
  - destruct H. tch.
  - destruct H as [c0 Hco Hc0 Hso Hbel [c1 c d w1 w2 w3 Hc1 Hva H1 Hc Hset Hau Hsig Hv Hpos Hd H2 H3 H4]].
    apply touches_resynced in H4. eapply touches_trans; [|eapply touches_incl; [|exact H4]; tin].
    destruct H3 as [[_ ->]|(_ & _ & H3)]; [tch|]. apply touches_burned in H3.
    eapply touches_trans; [|eapply touches_incl; [|exact H3]; tin]. tch.
  - destruct H as [? ? ? ? ? ? ->]. apply touches_setd.
  - destruct H as [? ? ? ? ? ? ? ->]. apply touches_setd.
  - destruct H. intros k I.
    assert (is_stake a <> k /\ is_val a <> k) as (A & B) by (split; intros EE; apply I; simpl; auto).
    apply N.eqb_neq in A, B.
    apply account_ext; auto; [rewrite Ho|rewrite Hd]; rewrite ?A, ?B; auto.
  - destruct H as [c0 Hco Hc0 Hso Hbel [c d w1 w2 w3 w4 H1 Hc Hvp Hva Hpos Hd Hb H2 H3 Hu Hsum1 H4 H5]]. tch.
  - destruct H as [c0 s vw Hco Hc0 Hso Hs Hk Hau Hnat Hvw Hsame H1
                  |c0 s vw kp s1 s3 w1 w2 w3 w4 cv cs Hco Hc0 Hso Hs Hk Hau Hnat Hvw Hdiff Hkp H1 Hs1 H2 H3 Hs3 H4 H5].
    + apply touches_harvested in H1. eapply touches_incl; [|exact H1]. tin.
    + rewrite Hkp. apply touches_resynced in H5. eapply touches_trans; [|eapply touches_incl; [|exact H5]; tin].
      subst w4. eapply touches_trans; [|eapply touches_incl; [|apply touches_setd]; tin].
      apply (touches_trans _ _ w2); [apply (touches_trans _ _ w1)|].
      * apply touches_harvested in H1. eapply touches_incl; [|exact H1]. tin.
      * destruct H2 as [? ? ? H2| ? ? ->]; [|apply touches_refl].
        apply touches_revalidated in H2. eapply touches_incl; [|exact H2]. tin.
      * destruct H3 as [? ? ? ? ? H3|? ? ? -> ? ?|? -> ? ?]; try apply touches_refl.
        apply touches_revalidated in H3. eapply touches_incl; [|exact H3]. tin.
  - destruct H. tch.
  - destruct H as [c0 Hco Hc0 Hso Hbel [c1 c d w1 w2 w3 Hc1 Hva H1 Hc Hset Hau Hsig Hv Hpos Hd H2 H3 H4]].
    apply touches_resynced in H4. eapply touches_trans; [|eapply touches_incl; [|exact H4]; tin].
    destruct H3 as [[_ ->]|(_ & _ & H3)]; [tch|]. apply touches_burned in H3.
    eapply touches_trans; [|eapply touches_incl; [|exact H3]; tin]. tch.
  - destruct H. tch.
  - destruct H. tch.
  - destruct H as [? ? ? ? ? ? ? ? ? ? ->]. apply touches_put_del.
Qed.

(** ** Accounts that only receive a reward *)
Lemma harvested_gain e w ck vhr auth va sk w' k : harvested e w ck vhr auth va sk None w' ->
  k <> ck -> k <> sk ->
  own (get w' k) = own (get w k) /\ dat (get w' k) = dat (get w k) /\ lam (get w k) <= lam (get w' k).
Proof.
  intros [] A B. split; [auto|]. split.
  - now rewrite Hdat, (proj2 (N.eqb_neq _ _) (not_eq_sym A)), (proj2 (N.eqb_neq _ _) (not_eq_sym B)).
  - rewrite Hlams. unfold paid_lam. cbv zeta. cbn [keeper_part keeper_lam].
    destruct (N.eqb_spec auth k) as [->|]; [lia|].
    rewrite (proj2 (N.eqb_neq _ _) (not_eq_sym A)). lia.
Qed.
Lemma staked_gain e cx a n w w' k : staked_any e cx a n w w' ->
  ~ In k [st_config a; st_pool a; st_ptok a; st_stake a; st_source a; st_vault_pda a; st_vault a; st_vhr a] ->
  own (get w' k) = own (get w k) /\ dat (get w' k) = dat (get w k) /\ lam (get w k) <= lam (get w' k).
Proof.
  intros [c0 Hco Hc0 Hso Hbel [c d w1 w2 w3 w4 H1 Hc Hvp Hva Hpos Hd Hb H2 H3 Hu Hsum1 H4 H5]] I.
  assert (get w' k = get w1 k) as ->.
  { revert I. revert k. change (touches [st_config a; st_pool a; st_ptok a; st_stake a; st_source a;
      st_vault_pda a; st_vault a; st_vhr a] w1 w'). clear H1. tch. }
  eapply harvested_gain; [exact H1| |]; intros ->; apply I; simpl; auto.
Qed.
Lemma moved_gain e cx a n w w' k : moved_ok e cx a n w w' ->
  ~ In k [mv_config a; mv_source a; mv_dest a] ->
  own (get w' k) = own (get w k) /\ dat (get w' k) = dat (get w k) /\ lam (get w k) <= lam (get w' k).
Proof.
  intros [] I.
  assert (get w' k = get w2 k) as ->.
  { revert I. revert k. change (touches [mv_config a; mv_source a; mv_dest a] w2 w'). clear H1 H2. tch. }
  assert (k <> mv_config a /\ k <> mv_source a /\ k <> mv_dest a) as (A & B & C)
    by (repeat split; intros ->; apply I; simpl; auto).
  destruct (harvested_gain _ _ _ _ _ _ _ _ k H2 A C) as (X1 & X2 & X3).
  destruct (harvested_gain _ _ _ _ _ _ _ _ k H1 A B) as (Y1 & Y2 & Y3).
  repeat split; [congruence|congruence|lia].
Qed.

(** ** Signatures are looked at only where declared *)
Lemma bind_ext {A B} (r : result A) (f g : A -> result B) :
  (forall x, r = Ok x -> f x = g x) -> bind r f = bind r g.
Proof. destruct r; simpl; auto. Qed.
Section Sigs.
Context (e : env) (sig sig' : pubkey -> bool).
Lemma token_authorise_sig t auth n : sig auth = sig' auth ->
  token_authorise sig t auth n = token_authorise sig' t auth n.
Proof. intros E. unfold token_authorise. rewrite E. reflexivity. Qed.
Lemma token_transfer_sig w src mnt dst auth n : sig auth = sig' auth ->
  token_transfer e sig w src mnt dst auth n = token_transfer e sig' w src mnt dst auth n.
Proof.
  intros E. unfold token_transfer. repeat (apply bind_ext; intros ? _).
  now rewrite (token_authorise_sig _ _ _ E).
Qed.
Lemma token_burn_sig w src mnt auth n : sig auth = sig' auth ->
  token_burn e sig w src mnt auth n = token_burn e sig' w src mnt auth n.
Proof.
  intros E. unfold token_burn. repeat (apply bind_ext; intros ? _).
  now rewrite (token_authorise_sig _ _ _ E).
Qed.
Lemma system_assign_sig w k o : sig k = sig' k -> system_assign sig w k o = system_assign sig' w k o.
Proof. intros E. unfold system_assign. now rewrite E. Qed.
Lemma system_allocate_sig w k o : sig k = sig' k -> system_allocate sig w k o = system_allocate sig' w k o.
Proof. intros E. unfold system_allocate. now rewrite E. Qed.
Lemma rewards_checked_sig w pool ptok vhr mnt owner : sig owner = sig' owner ->
  rewards_checked e sig w pool ptok vhr mnt owner = rewards_checked e sig' w pool ptok vhr mnt owner.
Proof. intros E. unfold rewards_checked. now rewrite E. Qed.
Lemma rewards_harvest_sig w pool ptok vhr mnt owner acc : sig owner = sig' owner ->
  rewards_harvest e sig w pool ptok vhr mnt owner acc = rewards_harvest e sig' w pool ptok vhr mnt owner acc.
Proof. intros E. unfold rewards_harvest. now rewrite (rewards_checked_sig _ _ _ _ _ _ E). Qed.
Lemma rewards_deposit_sig w pool ptok vhr tacc mnt owner tp n acc : sig owner = sig' owner ->
  rewards_deposit e sig w pool ptok vhr tacc mnt owner tp n acc =
  rewards_deposit e sig' w pool ptok vhr tacc mnt owner tp n acc.
Proof.
  intros E. unfold rewards_deposit. rewrite (rewards_checked_sig _ _ _ _ _ _ E).
  repeat (apply bind_ext; intros ? _). now rewrite (token_transfer_sig _ _ _ _ _ _ E).
Qed.
Lemma rewards_withdraw_sig w pool ptok vhr tacc mnt owner tp n acc : sig owner = sig' owner ->
  rewards_withdraw e sig w pool ptok vhr tacc mnt owner tp n acc =
  rewards_withdraw e sig' w pool ptok vhr tacc mnt owner tp n acc.
Proof. intros E. unfold rewards_withdraw. now rewrite (rewards_checked_sig _ _ _ _ _ _ E). Qed.
End Sigs.

(** The signature each call looks at. *)
Definition asks (c : call) : list pubkey :=
  match c with
  | CValidatorStakeTokens a _ | CSolStakerStakeTokens a _ => [st_source_auth a]
  | CSlashValidatorStake a _ | CSlashSolStakerStake a _ => [sl_slash a]
  | CSetAuthority a _ => [sa_authority a]
  | CUpdateConfig a _ => [uc_authority a]
  | CUnstakeTokens a _ => [un_authority a]
  | CSolStakerMoveTokens a _ => [mv_authority a]
  | CValidatorOverride a _ => [ov_config_auth a]
  | _ => []
  end.
Definition resign (cx : ctx) (sg wr : list pubkey) : ctx := Ctx sg wr (c_now cx) (c_view cx) (c_pool_acc cx).
Lemma with_pda_self cx p : with_pda cx p p = true.
Proof. unfold with_pda. rewrite N.eqb_refl. apply orb_true_r. Qed.
Lemma require_eq b b' er : b = b' -> require b er = require b' er.
Proof. now intros ->. Qed.

Lemma stake_tokens_sig e cx a co n w sg wr :
  signed (resign cx sg wr) (st_source_auth a) = signed cx (st_source_auth a) ->
  stake_tokens e (resign cx sg wr) a co n w = stake_tokens e cx a co n w.
Proof.
  intros E. unfold stake_tokens. cbn [resign c_pool_acc c_now c_view]. cbv zeta.
  apply bind_ext; intros w1 _. apply bind_ext; intros c _. apply bind_ext; intros u P.
  apply require_ok in P. b2p P. rewrite P.
  do 8 (apply bind_ext; intros ? _).
  destruct (match dat _ with DVal v => _ | DSol s => _ | _ => _ end) as [l lmin].
  apply bind_ext; intros ? _. apply bind_ext; intros ? _.
  rewrite (token_transfer_sig e _ (signed cx) _ _ _ _ _ _ E).
  apply bind_ext; intros ? _. apply bind_ext; intros ? _.
  apply rewards_deposit_sig. now rewrite !with_pda_self.
Qed.
Lemma slash_stake_sig e cx a c l lmin n w sg wr :
  signed (resign cx sg wr) (sl_slash a) = signed cx (sl_slash a) ->
  slash_stake e (resign cx sg wr) a c l lmin n w = slash_stake e cx a c l lmin n w.
Proof.
  intros E. unfold slash_stake. apply bind_ext; intros vs _. apply bind_ext; intros u P.
  do 4 (apply bind_ext; intros ? _). rewrite E. do 4 (apply bind_ext; intros ? _).
  unfold process_slash_for_delegation. cbv zeta.
  match goal with |- bind ?x ?k = bind ?y ?k => replace x with y; [reflexivity|] end.
  do 4 (apply bind_ext; intros ? _). destruct (0 <? _); [|reflexivity].
  do 2 (apply bind_ext; intros ? _). symmetry. apply token_burn_sig. now rewrite !with_pda_self.
Qed.
Lemma handler_sig e cx c w sg wr :
  (forall k, In k (asks c) -> signed (resign cx sg wr) k = signed cx k) ->
  handler e (resign cx sg wr) c w = handler e cx c w.
Proof.
  intros A. destruct c; cbn [handler asks] in *.
  - unfold initialize_config. cbv zeta. apply bind_ext; intros ? _. apply bind_ext; intros u P.
    apply require_ok in P. b2p P. rewrite P. apply bind_ext; intros ? _.
    now rewrite (system_assign_sig _ (with_pda cx (e_vault e (ic_config a)))) by now rewrite !with_pda_self.
  - unfold initialize_validator_stake. cbv zeta. do 4 (apply bind_ext; intros ? _). apply bind_ext; intros u P.
    apply require_ok in P. b2p P. rewrite P. do 2 (apply bind_ext; intros ? _).
    rewrite (system_allocate_sig _ (with_pda cx (e_val e (iv_vote a) (iv_config a)))) by now rewrite !with_pda_self.
    apply bind_ext; intros ? _.
    now rewrite (system_assign_sig _ (with_pda cx (e_val e (iv_vote a) (iv_config a)))) by now rewrite !with_pda_self.
  - unfold validator_stake_tokens. do 2 (apply bind_ext; intros ? _). apply stake_tokens_sig. apply A. now left.
  - unfold harvest_holder_rewards. do 4 (apply bind_ext; intros ? _). apply bind_ext; intros vs _.
    apply bind_ext; intros u P. apply require_ok in P. b2p P. rewrite P.
    do 3 (apply bind_ext; intros ? _). cbn [resign c_pool_acc].
    now rewrite (rewards_harvest_sig e _ (with_pda cx vs)) by now rewrite !with_pda_self.
  - reflexivity.
  - unfold slash_validator_stake. do 2 (apply bind_ext; intros ? _). apply slash_stake_sig. apply A. now left.
  - unfold set_authority_ix. rewrite A by now left. reflexivity.
  - unfold update_config. rewrite A by now left. reflexivity.
  - unfold initialize_sol_staker_stake. cbv zeta. cbn [resign c_view].
    do 9 (apply bind_ext; intros ? _). apply bind_ext; intros u P.
    apply require_ok in P. b2p P. rewrite P. do 4 (apply bind_ext; intros ? _).
    rewrite (system_allocate_sig _ (with_pda cx (e_sol e (is_native a) (is_config a)))) by now rewrite !with_pda_self.
    apply bind_ext; intros ? _.
    now rewrite (system_assign_sig _ (with_pda cx (e_sol e (is_native a) (is_config a)))) by now rewrite !with_pda_self.
  - unfold sol_staker_stake_tokens. do 2 (apply bind_ext; intros ? _). apply stake_tokens_sig. apply A. now left.
  - reflexivity.
  - unfold unstake_tokens. cbv zeta. cbn [resign c_now c_pool_acc]. rewrite A by now left.
    do 4 (apply bind_ext; intros ? _). apply bind_ext; intros u P. apply require_ok in P. b2p P. rewrite P.
    apply bind_ext; intros ? _. apply bind_ext; intros [[pp l] lmin] _.
    do 16 (apply bind_ext; intros ? _).
    rewrite (rewards_withdraw_sig e _ (with_pda cx (e_vault e (un_config a)))) by now rewrite !with_pda_self.
    do 2 (apply bind_ext; intros ? _).
    apply token_transfer_sig. now rewrite !with_pda_self.
  - unfold slash_sol_staker_stake. do 2 (apply bind_ext; intros ? _). apply slash_stake_sig. apply A. now left.
  - unfold sol_staker_move_tokens. rewrite A by now left. reflexivity.
  - unfold validator_override. rewrite A by now left. reflexivity.
  - reflexivity.
Qed.
Lemma asks_signed e cx w w' c k : did e cx w w' c -> In k (asks c) -> signed cx k = true.
Proof.
  intros D. destruct D as [a s au cd b sy du H|a H|a n v H _|a H|a H|a n v H _|a t H|a f H|a H|a n s H _
                          |a H|a n H|a n s H _|a n H|a n H|a H]; cbn [asks In]; intros I;
    try contradiction; destruct I as [<-|[]].
  - destruct H as [c0 ? ? ? ? [? ? ? ? ? ? ? ? ? ? ? ? ? ? ? ? ? H4 _]]. destruct H4.
    now apply token_authorise_ok in Hau.
  - now destruct H as [c0 ? ? ? ? []].
  - now destruct H.
  - now destruct H.
  - destruct H as [c0 ? ? ? ? [? ? ? ? ? ? ? ? ? ? ? ? ? ? ? ? ? H4 _]]. destruct H4.
    now apply token_authorise_ok in Hau.
  - now destruct H.
  - now destruct H as [c0 ? ? ? ? []].
  - now destruct H.
  - now destruct H.
Qed.
