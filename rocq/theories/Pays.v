(** What every instruction that settles stake accounts pays, and to whom. *)
From Verif Require Import Base Types Layout Instr Math External Processor Runtime History Spec SpecReward
  WorldLemmas Effects Handlers Evolve Sane Wf Totals Arith Nets Caps Stakers Deposits Inv Life Tokens Gov Flow
  Rewards Collect.

(** Stake sizes of [ks] may change, recorded accumulators do not. *)
Definition after (e : env) (ck : pubkey) (ks : list pubkey) (w w' : world) : Prop :=
  (forall x, ~ In x ks -> stake_of e w' ck x = stake_of e w ck x) /\
  (forall x d, stake_of e w ck x = Some d -> exists d', stake_of e w' ck x = Some d' /\
     last_stake d' = last_stake d /\ last_holder d' = last_holder d).
Lemma after_trans e ck ks w1 w2 w3 : after e ck ks w1 w2 -> after e ck ks w2 w3 -> after e ck ks w1 w3.
Proof.
  intros [A1 B1] [A2 B2]. split; [intros x X; rewrite A2; auto|].
  intros x d S. destruct (B1 _ _ S) as (d1 & S1 & E1 & F1). destruct (B2 _ _ S1) as (d2 & S2 & E2 & F2).
  exists d2. repeat split; congruence.
Qed.
Lemma after_same e ck ks w w' : (forall x, stake_of e w' ck x = stake_of e w ck x) -> after e ck ks w w'.
Proof. intros H. split; [auto|]. intros x d S. exists d. rewrite H. auto. Qed.
Lemma after_delta e ck ks w w' sk x d' : In sk ks -> delta e w w' sk d' -> del_of (dat (get w sk)) = Ok x ->
  last_stake d' = last_stake x -> last_holder d' = last_holder x -> after e ck ks w w'.
Proof.
  intros I H D L1 L2. split.
  - intros k K. eapply delta_other; eauto. intros ->. contradiction.
  - intros k d S. destruct (N.eq_dec k sk) as [->|NE].
    + exists d'. split; [eapply delta_stake; eauto|]. apply stake_of_some in S as (_ & S & _). rewrite D in S. injection S as <-. auto.
    + exists d. split; [rewrite (delta_other _ _ _ _ _ _ _ H NE); auto|auto].
Qed.
Lemma after_put_del e ck ks w sk x d' : In sk ks -> del_of (dat (get w sk)) = Ok x -> vote d' = vote x ->
  last_stake d' = last_stake x -> last_holder d' = last_holder x -> after e ck ks w (put_del w sk d').
Proof. intros I D V L1 L2. eapply after_delta; eauto. eapply delta_put_del; eauto. Qed.
Lemma after_resync e ck ks w sk lim w' : In sk ks -> resynced w ck sk lim w' -> after e ck ks w w'.
Proof.
  intros I H. destruct (delta_resync e _ _ _ _ _ H) as (c & d & limit & _ & D & _ & _ & _ & _ & X).
  eapply after_delta; eauto.
Qed.
Lemma after_pframe e ck ks w w' : pframe e w w' -> after e ck ks w w'.
Proof. intros H. apply after_same. intros. now apply pframe_stake_of. Qed.
Lemma after_set_val e ck ks w sk v v' : In sk ks -> dat (get w sk) = DVal v -> v_del v' = v_del v ->
  after e ck ks w (setd w sk (DVal v')).
Proof.
  intros I D E. apply after_same. intros x. unfold stake_of, stake_in. ws.
  destruct (N.eqb_spec sk x) as [<-|]; [|auto]. rewrite D, E. reflexivity.
Qed.

(** Accounts [ks] are settled between [w] and [w'], the others untouched. *)
Record touched (e : env) (ck : pubkey) (ks : list pubkey) (w w' : world) : Prop := {
  to_nd : NoDup ks;
  to_in : forall x, In x ks -> exists d d', stake_of e w ck x = Some d /\ stake_of e w' ck x = Some d' /\
    last_stake d' = acc_at w ck /\ last_holder d' = holder_acc e w ck;
  to_out : forall x, ~ In x ks -> stake_of e w' ck x = stake_of e w ck x;
}.
Lemma touched_after e ck ks w w1 w' : touched e ck ks w w1 -> after e ck ks w1 w' -> touched e ck ks w w'.
Proof.
  intros [ND A B] [C D]. split; auto.
  - intros x X. destruct (A x X) as (d & d1 & S & S1 & L1 & L2). destruct (D _ _ S1) as (d' & S' & E1 & E2).
    exists d, d'. repeat split; auto; congruence.
  - intros x X. rewrite C; auto.
Qed.
Lemma touched_collected e ck sk w w' : collected e ck sk w w' -> touched e ck [sk] w w'.
Proof.
  intros C. split.
  - apply NoDup_singleton.
  - intros x [<-|[]]. exact (co_self _ _ _ _ _ C).
  - intros x X. apply (co_oth _ _ _ _ _ C). intros ->. apply X. now left.
Qed.

(** Lamports move from the config to the authorities of [ks], and [r] from the
    rewards pool to the vault authority. *)
Definition moves (e : env) (ck : pubkey) (ks : list pubkey) (pool r : N) (w w' : world) : Prop := forall k,
  lam (get w' k) + (if k =? ck then sum_over (pending e w ck) ks else 0) + (if k =? pool then r else 0) =
  lam (get w k) + sum_over (share e w ck k) ks + (if k =? e_vault e ck then r else 0).
Definition pool_paid (e : env) (ck : pubkey) (w w' : world) : N :=
  since (holder_acc e w' ck) (holder_acc e w ck) * deposit e w ck / 10 ^ 18.

Lemma harvest_shares e w ck vhr auth sk w' :
  harvested e w ck vhr auth (e_vault e ck) sk None w' ->
  own (get w sk) = e_prog e -> belongs e ck sk (dat (get w sk)) -> acc_ok ck w ->
  total_lamports w' = total_lamports w ->
  collected e ck sk w w' /\ forall k,
    lam (get w' k) + (if k =? ck then pending e w ck sk else 0) = lam (get w k) + share e w ck k sk.
Proof.
  intros H O B A T. destruct (harvest_collects _ _ _ _ _ _ _ _ H ltac:(discriminate) O B A T) as (C & c & D & P).
  split; [auto|]. intros k. specialize (P k). cbn [keeper_part] in P. rewrite N.sub_0_r, N.add_0_r in P. rewrite P.
  destruct H. assert (stake_of e w ck sk = Some d) as SS by (apply stake_of_intro; auto).
  unfold share. rewrite SS, Ha, N.eqb_sym. reflexivity.
Qed.
Lemma pay_lam_moves w pool owner r k : pool <> owner -> r <= lam (get w pool) ->
  pay_lam w pool owner r k + (if k =? pool then r else 0) = lam (get w k) + (if k =? owner then r else 0).
Proof.
  intros NE L. unfold pay_lam. destruct (N.eqb_spec r 0) as [->|]; [destruct (k =? pool), (k =? owner); lia|].
  rewrite (N.eqb_sym owner k), (N.eqb_sym pool k), (proj2 (N.eqb_neq _ _) NE).
  destruct (N.eqb_spec k owner) as [->|]; [rewrite (proj2 (N.eqb_neq _ _) (not_eq_sym NE)); lia|].
  destruct (N.eqb_spec k pool) as [->|]; lia.
Qed.
Lemma pool_reward_eq acc last n r : pool_reward acc last n = Ok r -> r = since acc last * n / 10 ^ 18.
Proof.
  unfold pool_reward. rewrite since_wsub. intros H. destruct (N.eqb_spec (since acc last) 0) as [->|].
  - injection H as <-. now rewrite N.mul_0_l.
  - destruct (_ <? U128); [|discriminate]. destruct (_ <? U64); [|discriminate]. injection H as <-. reflexivity.
Qed.
Lemma pool_not_vault e ck mnt : env_ok e -> e_pool e mnt <> e_vault e ck.
Proof. intros OK E. apply (ok_pool_pda _ OK mnt). rewrite E. unfold pda. eauto 10. Qed.

(** One statement for the instructions on a single stake account. *)
Lemma moves_one e ck sk pool r w w1 w' :
  (forall k, lam (get w1 k) + (if k =? ck then pending e w ck sk else 0) = lam (get w k) + share e w ck k sk) ->
  (forall k, lam (get w' k) + (if k =? pool then r else 0) =
             lam (get w1 k) + (if k =? e_vault e ck then r else 0)) ->
  moves e ck [sk] pool r w w'.
Proof. intros A B k. specialize (A k). specialize (B k). cbn [sum_over]. rewrite !N.add_0_r. destruct (k =? ck); lia. Qed.

Lemma staked_pays e cx a n w w' : env_ok e -> sane e w -> acc_ok (st_config a) w -> staked_any e cx a n w w' ->
  total_lamports w' = total_lamports w ->
  touched e (st_config a) [st_stake a] w w' /\
  st_pool a <> e_vault e (st_config a) /\
  moves e (st_config a) [st_stake a] (st_pool a) (pool_paid e (st_config a) w w') w w' /\
  holder_acc e w' (st_config a) = c_pool_acc cx mod 2 ^ 128.
Proof.
  intros OK S A [c0 Hco Hc0 Hso Hbel H] T. destruct H. remember (st_config a) as ck eqn:CK.
  destruct H5 as [h r v1 v2 Hp Hpo Hsig Hv Hvo Hh Hpt Hta Hr Hb5 Hw1 Hw2 Ho Hdat Hl Hlb Hlp].
  assert (forall k, lam (get w4 k) = lam (get w1 k)) as L4.
  { intros k. destruct H4. rewrite Hl0. destruct H3. rewrite Hlams, H2. now ws. }
  assert (forall k, own (get w4 k) = own (get w1 k)) as O4.
  { intros k. destruct H4. rewrite Ho0. destruct H3. rewrite Ho1, H2. now ws. }
  assert (total_lamports w1 = total_lamports w) as T1.
  { rewrite <- T. rewrite (total_pay _ _ _ _ _ Hlp Hl). symmetry. now apply total_same. }
  destruct (harvest_shares _ _ _ _ _ _ _ H1 Hso Hbel A T1) as [C P].
  assert (st_pool a <> e_vault e ck) as NPV by (rewrite Hp; now apply pool_not_vault).
  assert (hframe w w4) as HF.
  { apply hframe_trans with w3; [|eapply hframe_transferred; eauto]. apply hframe_trans with w2; [|eapply hframe_resync; eauto].
    apply hframe_trans with w1; [eapply hframe_harvest; eauto|]. rewrite H2. eapply hframe_put_del; eauto. }
  assert (st_vhr a = e_holder e (e_vault e ck)) as VH by congruence.
  assert (holder_acc e w' ck = c_pool_acc cx mod U128) as HA.
  { unfold holder_acc. rewrite <- VH, Hdat. destruct Hw2. rewrite Hdat0. rewrite Hw1 in *. wsi Hs. wsi Hd0.
    destruct (N.eqb_spec (st_vhr a) (st_vault a)); [discriminate|]. destruct (N.eqb_spec (st_vhr a) (st_ptok a)); [discriminate|].
    ws. rewrite N.eqb_refl. destruct (_ =? _); [reflexivity|]. destruct (N.eqb_spec (st_vault a) (st_vhr a)); [congruence|].
    destruct (N.eqb_spec (st_ptok a) (st_vhr a)); [congruence|]. reflexivity. }
  assert (h_last h = holder_acc e w ck /\ h_deposited h = deposit e w ck) as [E1 E2].
  { apply HF in Hh. unfold holder_acc, deposit. rewrite <- VH, Hh. auto. }
  split; [|split; [auto|split; [|auto]]].
  - eapply touched_after; [eapply touched_collected; eauto|].
    apply after_trans with w2; [rewrite H2; eapply after_put_del; [now left|exact Hd|reflexivity..]|].
    apply after_trans with w3; [eapply after_resync; eauto; now left|].
    apply after_trans with w4; [apply after_pframe; eapply pframe_transferred; eauto|].
    apply after_pframe. eapply (pframe_deposited e); [eauto|]. eapply DepositedOk; eauto.
  - eapply moves_one; [exact P|]. intros k. rewrite Hl. unfold pool_paid. rewrite HA, <- E1, <- E2.
    rewrite <- (pool_reward_eq _ _ _ _ Hr). rewrite <- L4. rewrite Hvp. apply pay_lam_moves; [auto|auto].
Qed.

Lemma unstaked_pays e cx a n w w' : env_ok e -> sane e w -> acc_ok (un_config a) w -> unstaked_ok e cx a n w w' ->
  total_lamports w' = total_lamports w ->
  touched e (un_config a) [un_stake a] w w' /\
  un_pool a <> e_vault e (un_config a) /\
  moves e (un_config a) [un_stake a] (un_pool a) (pool_paid e (un_config a) w w') w w' /\
  (holder_acc e w' (un_config a) = c_pool_acc cx mod 2 ^ 128 \/
   holder_acc e w' (un_config a) = holder_acc e w (un_config a)).
Proof.
  intros OK S A H T. destruct H. remember (un_config a) as ck eqn:CK.
  pose proof (pframe_withdrawn _ _ _ _ _ _ _ _ _ _ _ _ OK H4) as PF4.
  pose proof (pframe_transferred _ _ _ _ _ _ _ _ _ OK H5) as PF5.
  assert (hframe w w3) as HF.
  { apply hframe_trans with w2; [|eapply hframe_resync; eauto].
    apply hframe_trans with w1; [eapply hframe_harvest; eauto|]. rewrite H2. eapply hframe_put_del; eauto. }
  assert (forall k, lam (get w3 k) = lam (get w1 k)) as L3.
  { intros k. destruct H3. rewrite Hlams, H2. now ws. }
  pose proof (hframe_transferred _ _ _ _ _ _ _ _ _ H5) as HF5.
  assert (forall k, lam (get w' k) = lam (get w4 k)) as L5 by (destruct H5; auto).
  destruct H4 as [h r0 r last v1 v2 Hp Hpo Hs4 Hv Hvo Hh Hpt Hta Ham4 Hr0 Hcase Hw1 Hw2 Ho Hdat Hl Hlb Hlp].
  assert (total_lamports w1 = total_lamports w) as T1.
  { rewrite <- T. rewrite (total_same w4 w' L5), (total_pay _ _ _ _ _ Hlp Hl). symmetry. now apply total_same. }
  destruct (harvest_shares _ _ _ _ _ _ _ H1 Hso Hbel A T1) as [C P].
  assert (un_pool a <> e_vault e ck) as NPV by (rewrite Hp; now apply pool_not_vault).
  assert (un_vhr a = e_holder e (e_vault e ck)) as VH by congruence.
  assert (holder_acc e w' ck = last) as HA.
  { rewrite (holder_acc_hframe _ _ _ _ HF5). unfold holder_acc. rewrite <- VH, Hdat. destruct Hw2. rewrite Hdat0. rewrite Hw1 in *. wsi Hs. wsi Hd1.
    destruct (N.eqb_spec (un_vhr a) (un_vault a)); [discriminate|]. destruct (N.eqb_spec (un_vhr a) (un_ptok a)); [discriminate|].
    ws. rewrite N.eqb_refl. destruct (_ =? _); [reflexivity|]. destruct (N.eqb_spec (un_ptok a) (un_vhr a)); [congruence|].
    destruct (N.eqb_spec (un_vault a) (un_vhr a)); [congruence|]. reflexivity. }
  assert (h_last h = holder_acc e w ck /\ h_deposited h = deposit e w ck) as [E1 E2].
  { apply HF in Hh. unfold holder_acc, deposit. rewrite <- VH, Hh. auto. }
  assert (r = pool_paid e ck w w') as RP.
  { unfold pool_paid. rewrite HA, <- E1, <- E2. destruct Hcase as [[-> ->]|[-> ->]]; [now apply pool_reward_eq|].
    now rewrite since_same, N.mul_0_l. }
  split; [|split; [auto|split]].
  - eapply touched_after; [eapply touched_collected; eauto|].
    apply after_trans with w2; [rewrite H2; eapply after_put_del; [now left|exact Hd|reflexivity..]|].
    apply after_trans with w3; [eapply after_resync; eauto; now left|].
    apply after_trans with w4; apply after_pframe; auto.
  - eapply moves_one; [exact P|]. intros k. rewrite L5, Hl, <- RP, <- L3, Hvp. apply pay_lam_moves; auto.
  - rewrite HA, <- E1. destruct Hcase as [[_ ->]|[_ ->]]; auto.
Qed.

Lemma moves_nothing e ck sk w w1 w' :
  (forall k, lam (get w1 k) + (if k =? ck then pending e w ck sk else 0) = lam (get w k) + share e w ck k sk) ->
  (forall k, lam (get w' k) = lam (get w1 k)) -> moves e ck [sk] ck 0 w w'.
Proof. intros A B. eapply moves_one; [exact A|]. intros k. rewrite B. destruct (k =? ck), (k =? e_vault e ck); auto. Qed.
Lemma slashed_pays e cx a n w w' : env_ok e -> sane e w -> acc_ok (sl_config a) w -> slashed_any e cx a n w w' ->
  total_lamports w' = total_lamports w ->
  touched e (sl_config a) [sl_stake a] w w' /\ moves e (sl_config a) [sl_stake a] (sl_config a) 0 w w'.
Proof.
  intros OK S A [c0 Hco Hc0 Hso Hbel H] T. destruct H as [c1 c d w1 w2 w3].
  assert (c1 = c0) as -> by congruence. rewrite (vault_auth_eq _ _ _ _ _ OK S (conj Hco Hc0) Hva) in *.
  assert (pframe e w2 w3 /\ forall k, lam (get w3 k) = lam (get w2 k)) as [PF L3].
  { destruct H3 as [[_ ->]|(_ & _ & H3)]; [split; [apply pframe_refl|auto]|]. split; [eapply pframe_burned; eauto|]. destruct H3; auto. }
  assert (forall k, lam (get w' k) = lam (get w1 k)) as L1.
  { intros k. destruct H4. rewrite Hlams, L3, H2. now ws. }
  assert (total_lamports w1 = total_lamports w) as T1 by (rewrite <- T; symmetry; now apply total_same).
  destruct (harvest_shares _ _ _ _ _ _ _ H1 Hso Hbel A T1) as [C P].
  split; [|eapply moves_nothing; eauto].
  eapply touched_after; [eapply touched_collected; eauto|].
  apply after_trans with w2; [rewrite H2; eapply after_put_del; [now left|exact Hd|reflexivity..]|].
  apply after_trans with w3; [now apply after_pframe|]. eapply after_resync; eauto. now left.
Qed.
Lemma overridden_pays e cx a n w w' : acc_ok (ov_config a) w -> overridden_ok e cx a n w w' ->
  total_lamports w' = total_lamports w ->
  touched e (ov_config a) [ov_stake a] w w' /\ moves e (ov_config a) [ov_stake a] (ov_config a) 0 w w'.
Proof.
  intros A H T. destruct H.
  assert (forall k, lam (get w' k) = lam (get w1 k)) as L1.
  { intros k. destruct H3. rewrite Hlams, H2. now ws. }
  assert (total_lamports w1 = total_lamports w) as T1 by (rewrite <- T; symmetry; now apply total_same).
  assert (belongs e (ov_config a) (ov_stake a) (dat (get w (ov_stake a)))) as Hbel by (rewrite Hv0; exact Hk).
  destruct (harvest_shares _ _ _ _ _ _ _ H1 Hso Hbel A T1) as [C P].
  split; [|eapply moves_nothing; eauto].
  eapply touched_after; [eapply touched_collected; eauto|].
  apply after_trans with w2; [rewrite H2; eapply after_set_val; eauto; now left|].
  eapply after_resync; eauto. now left.
Qed.
Lemma val_harvested_pays e a w w' : acc_ok (hv_config a) w -> val_harvested e a w w' ->
  total_lamports w' = total_lamports w ->
  touched e (hv_config a) [hv_stake a] w w' /\ moves e (hv_config a) [hv_stake a] (hv_config a) 0 w w'.
Proof.
  intros A H T. destruct H.
  assert (belongs e (hv_config a) (hv_stake a) (dat (get w (hv_stake a)))) as Hbel by (rewrite Hv; exact Hk).
  destruct (harvest_shares _ _ _ _ _ _ _ H Hso Hbel A T) as [C P].
  split; [apply touched_collected; auto|]. eapply moves_nothing; eauto.
Qed.
Lemma moved_pays e cx a n w w' : acc_ok (mv_config a) w -> moved_ok e cx a n w w' ->
  total_lamports w' = total_lamports w ->
  touched e (mv_config a) [mv_source a; mv_dest a] w w' /\
  moves e (mv_config a) [mv_source a; mv_dest a] (mv_config a) 0 w w'.
Proof.
  intros A H T. destruct H. remember (mv_config a) as ck eqn:CK.
  assert (forall k, lam (get w' k) = lam (get w2 k)) as L2.
  { intros k. destruct H6. rewrite Hlams. destruct H5. rewrite Hlams0, H4, H3. now ws. }
  assert (total_lamports w2 = total_lamports w) as T2 by (rewrite <- T; symmetry; now apply total_same).
  pose proof (settles_harvest _ _ _ _ _ _ _ _ _ H1 ltac:(discriminate)) as [M1 _].
  pose proof (settles_harvest _ _ _ _ _ _ _ _ _ H2 ltac:(discriminate)) as [M2 _].
  assert (belongs e ck (mv_source a) (dat (get w (mv_source a)))) as B1 by (rewrite Hs0; exact Hsk).
  destruct (harvest_shares _ _ _ _ _ _ _ H1 Hso B1 A ltac:(lia)) as [C1 P1].
  assert (belongs e ck (mv_dest a) (dat (get w1 (mv_dest a)))) as B2 by (rewrite Ht0; exact Htk).
  assert (own (get w1 (mv_dest a)) = e_prog e) as O2 by (rewrite (co_own _ _ _ _ _ C1); auto).
  destruct (harvest_shares _ _ _ _ _ _ _ H2 O2 B2 (co_ok _ _ _ _ _ C1) ltac:(lia)) as [C2 P2].
  assert (pending e w1 ck (mv_dest a) = pending e w ck (mv_dest a)) as PE by (eapply collected_pending; eauto).
  assert (forall k, share e w1 ck k (mv_dest a) = share e w ck k (mv_dest a)) as SE by (intros; eapply share_collected; eauto).
  assert (touched e ck [mv_source a; mv_dest a] w w2) as TT.
  { split.
    - apply NoDup_cons. split; [|apply NoDup_singleton]. rewrite elem_of_list_singleton. auto.
    - intros x [<-|[<-|[]]].
      + destruct (co_self _ _ _ _ _ C1) as (d & d' & X1 & X2 & X3 & X4). exists d, d'.
        rewrite (co_oth _ _ _ _ _ C2) by auto. auto.
      + destruct (co_self _ _ _ _ _ C2) as (d & d' & X1 & X2 & X3 & X4). exists d, d'.
        rewrite <- (co_oth _ _ _ _ _ C1) by auto. rewrite <- (co_acc _ _ _ _ _ C1), <- (co_hold _ _ _ _ _ C1). auto.
    - intros x X. rewrite (co_oth _ _ _ _ _ C2), (co_oth _ _ _ _ _ C1); auto; intros ->; apply X; simpl; auto. }
  split.
  - eapply touched_after; [exact TT|].
    apply after_trans with w3; [rewrite H3; eapply after_put_del; [now left|rewrite Hs; reflexivity|reflexivity..]|].
    apply after_trans with w4.
    { rewrite H4. eapply (after_put_del _ _ _ _ _ (s_del t)); [now right; left| |reflexivity..]. rewrite H3. ws.
      destruct (N.eqb_spec (mv_source a) (mv_dest a)); [congruence|]. rewrite Ht. reflexivity. }
    apply after_trans with w5; [eapply after_resync; eauto; now left|eapply after_resync; eauto; now right; left].
  - intros k. specialize (P1 k). specialize (P2 k). rewrite PE, SE in P2. rewrite L2. cbn [sum_over].
    destruct (k =? ck), (k =? e_vault e ck); lia.
Qed.
