(** What a harvest does to the claims of the harvested account and of all others. *)
From Verif Require Import Base Types Math External Processor Runtime History Spec SpecReward
  WorldLemmas Effects Handlers Evolve Sane Wf Totals Arith Nets Caps Stakers Deposits Inv Life Rewards.

Definition claim_at (a h : N) (o : option delegation) : N :=
  match o with
  | Some d => since a (last_stake d) * effective d / 10 ^ 18 + since h (last_holder d) * staked d / 10 ^ 18
  | None => 0
  end.
Lemma pending_eq e w ck k c : dat (get w ck) = DConfig c ->
  pending e w ck k = claim_at (acc_at w ck) (holder_acc e w ck) (stake_of e w ck k).
Proof. intros D. unfold pending, claim_at, acc_at. rewrite D. destruct (stake_of e w ck k); reflexivity. Qed.
Lemma acc_at_eq w ck c : dat (get w ck) = DConfig c -> acc_at w ck = acc_now (lam (get w ck)) c.
Proof. intros D. unfold acc_at. now rewrite D. Qed.
Lemma holder_acc_hframe e w w' ck : hframe w w' -> holder_acc e w' ck = holder_acc e w ck.
Proof.
  intros F. unfold holder_acc. specialize (F (e_holder e (e_vault e ck))).
  destruct (dat (get w (e_holder e (e_vault e ck)))) eqn:D;
    try (rewrite (proj2 (F _) eq_refl); reflexivity);
    destruct (dat (get w' (e_holder e (e_vault e ck)))) eqn:D'; try reflexivity;
    pose proof (proj1 (F _) eq_refl); discriminate.
Qed.
Lemma claim_settled a h d : last_stake d = a -> last_holder d = h -> claim_at a h (Some d) = 0.
Proof. intros <- <-. simpl. rewrite !since_same. reflexivity. Qed.

Record collected (e : env) (ck sk : pubkey) (w w' : world) : Prop := {
  co_ok : acc_ok ck w';
  co_own : forall k, own (get w' k) = own (get w k);
  co_cfg : exists c c', dat (get w ck) = DConfig c /\ dat (get w' ck) = DConfig c' /\ cfg_sync c' = cfg_sync c;
  co_acc : acc_at w' ck = acc_at w ck;
  co_hold : holder_acc e w' ck = holder_acc e w ck;
  co_oth : forall k, k <> sk -> stake_of e w' ck k = stake_of e w ck k;
  co_self : exists d d', stake_of e w ck sk = Some d /\ stake_of e w' ck sk = Some d' /\
    last_stake d' = acc_at w ck /\ last_holder d' = holder_acc e w ck;
}.
Lemma collected_pending e ck sk w w' k : collected e ck sk w w' -> k <> sk ->
  pending e w' ck k = pending e w ck k.
Proof.
  intros [] NE. destruct co_cfg0 as (c & c' & D & D' & _).
  rewrite (pending_eq _ _ _ _ _ D), (pending_eq _ _ _ _ _ D'). rewrite co_acc0, co_hold0, co_oth0 by auto. reflexivity.
Qed.
Lemma collected_zero e ck sk w w' : collected e ck sk w w' -> pending e w' ck sk = 0.
Proof.
  intros [] . destruct co_cfg0 as (c & c' & D & D' & _). destruct co_self0 as (d & d' & S & S' & A & B).
  rewrite (pending_eq _ _ _ _ _ D'), S'. apply claim_settled; congruence.
Qed.

(** Lamports of [k] change by a harvest of [r] of which the keeper gets [kr]. *)
Definition paid_out (ck auth : pubkey) (keeper : option pubkey) (r kr : N) (w w' : world) : Prop := forall k,
  lam (get w' k) + (if k =? ck then r else 0) =
  lam (get w k) + (match keeper with Some x => if x =? k then kr else 0 | None => 0 end) +
  (if k =? auth then r - kr else 0).

Lemma acc_at_settled ck w w' : settles ck w w' -> acc_ok ck w -> total_lamports w' = total_lamports w ->
  acc_ok ck w' /\ acc_at w' ck = acc_at w ck /\ (exists c', dat (get w' ck) = DConfig c' /\ cfg_acc c' = acc_at w ck).
Proof.
  intros (_ & c & c' & D & D' & L & B & F) A T. specialize (A c D). destruct (F T A) as [F1 F2]. specialize (B A).
  split; [intros x; rewrite D'; intros [= <-]; auto|].
  rewrite (acc_at_eq _ _ _ D), (acc_at_eq _ _ _ D'), acc_now_seen by (auto; lia). split; [auto|].
  exists c'. split; auto.
Qed.

Lemma harvest_collects e w ck vhr auth sk keeper w' :
  harvested e w ck vhr auth (e_vault e ck) sk keeper w' -> keeper <> Some ck ->
  own (get w sk) = e_prog e -> belongs e ck sk (dat (get w sk)) -> acc_ok ck w ->
  total_lamports w' = total_lamports w ->
  collected e ck sk w w' /\
  exists c, dat (get w ck) = DConfig c /\
    paid_out ck auth keeper (pending e w ck sk) (keeper_part keeper (pending e w ck sk) (cfg_sync c)) w w'.
Proof.
  intros H NK SO B A T. pose proof (settles_harvest _ _ _ _ _ _ _ _ _ H NK) as S.
  destruct (acc_at_settled _ _ _ S A T) as (A' & Q & _).
  pose proof (hframe_harvest _ _ _ _ _ _ _ _ _ H) as HF. pose proof (harvested_sk _ _ _ _ _ _ _ _ _ H) as NS.
  destruct (total_harvest _ _ _ _ _ _ _ _ _ H NK) as (c2 & d2 & h2 & rpt2 & sr2 & hr2 & RD2 & TT).
  destruct (harvested_net _ _ _ _ _ _ _ _ _ H)
    as (c & d & h & rpt & sr & hr & RD & AU & _ & O1 & L1 & C1 & S1 & X1).
  assert (D := rd_c _ _ _ _ _ _ _ _ _ _ _ RD). assert (DS := rd_d _ _ _ _ _ _ _ _ _ _ _ RD).
  assert (c2 = c) as -> by (pose proof (rd_c _ _ _ _ _ _ _ _ _ _ _ RD2); congruence).
  assert (d2 = d) as -> by (pose proof (rd_d _ _ _ _ _ _ _ _ _ _ _ RD2); congruence).
  destruct (reading_claims _ _ _ _ _ _ _ _ _ _ (A _ D) RD) as (E1 & E2 & _ & _ & E3 & E4).
  destruct (reading_claims _ _ _ _ _ _ _ _ _ _ (A _ D) RD2) as (E1' & E2' & _).
  assert (stake_of e w ck sk = Some d) as SD by (apply stake_of_intro; auto).
  assert (pending e w ck sk = sr + hr) as P by (unfold pending; rewrite SD, D; congruence).
  assert (stake_of e w' ck sk = Some (settle_del c rpt h d)) as SD'.
  { apply stake_of_intro; [now rewrite O1| |].
    - rewrite S1, (with_del_ok _ _ _ DS). eapply del_of_upd'; eauto.
    - rewrite S1, (with_del_ok _ _ _ DS). destruct (dat (get w sk)); try discriminate; simpl in *; auto.
      injection DS as <-. exact B. }
  split.
  - split; auto.
    + exists c. eexists. split; [auto|]. split; [exact C1|]. reflexivity.
    + now apply holder_acc_hframe.
    + intros k K. destruct (N.eq_dec k ck) as [->|].
      * rewrite (stake_of_config _ _ _ _ _ C1). symmetry. eapply stake_of_config; eauto.
      * apply stake_of_eq; auto.
    + exists d, (settle_del c rpt h d). split; [auto|]. split; [auto|]. cbn. split; [|auto].
      rewrite (acc_at_eq _ _ _ D). auto.
  - exists c. split; [auto|]. intros k. rewrite L1, P. unfold paid_out, paid_lam.
    assert (keeper_part keeper (sr + hr) (cfg_sync c) <= sr + hr) as KP by (unfold keeper_part; destruct keeper; lia).
    assert (sr + hr <= lam (get w ck)) as LE by exact (rd_lam _ _ _ _ _ _ _ _ _ _ _ RD).
    assert (auth = ck -> sr + hr = 0) as Z.
    { intros ->. rewrite N.eqb_refl in TT. lia. }
    set (kr := keeper_part keeper (sr + hr) (cfg_sync c)) in *. clearbody kr.
    destruct (N.eqb_spec auth k) as [->|N1].
    + rewrite N.eqb_refl. unfold keeper_lam. destruct (N.eqb_spec k ck) as [->|N2].
      * specialize (Z eq_refl). rewrite Z in *. replace kr with 0 by lia.
        destruct keeper as [x|]; [destruct (x =? ck)|]; lia.
      * destruct keeper as [x|]; [destruct (x =? k)|]; lia.
    + rewrite (N.eqb_sym k auth), (proj2 (N.eqb_neq _ _) N1), (N.eqb_sym k ck).
      destruct (N.eqb_spec ck k) as [<-|N2].
      * destruct keeper as [x|]; [|lia]. destruct (N.eqb_spec x ck) as [->|]; [congruence|lia].
      * unfold keeper_lam. destruct keeper as [x|]; [destruct (x =? k)|]; lia.
Qed.

(** Changing nothing but stake sizes after the harvest keeps the account settled. *)
Lemma collected_after e ck sk w w1 w' : collected e ck sk w w1 -> acc_ok ck w1 ->
  acc_ok ck w' -> acc_at w' ck = acc_at w1 ck -> hframe w1 w' ->
  (forall k, own (get w' k) = own (get w1 k)) ->
  (exists c c', dat (get w1 ck) = DConfig c /\ dat (get w' ck) = DConfig c' /\ cfg_sync c' = cfg_sync c) ->
  (forall k, k <> sk -> stake_of e w' ck k = stake_of e w1 ck k) ->
  (forall d1, stake_of e w1 ck sk = Some d1 -> exists d', stake_of e w' ck sk = Some d' /\
     last_stake d' = last_stake d1 /\ last_holder d' = last_holder d1) ->
  collected e ck sk w w'.
Proof.
  intros [] A1 A' Q HF O C S1 S2. split; auto.
  - intros k. now rewrite O.
  - destruct co_cfg0 as (c & c1 & D & D1 & E), C as (c1' & c' & D1' & D' & E'). exists c, c'. split; [auto|]. split; [auto|].
    congruence.
  - congruence.
  - rewrite (holder_acc_hframe _ _ _ _ HF). auto.
  - intros k K. rewrite S1; auto.
  - destruct co_self0 as (d & d1 & E & E1 & X & Y). destruct (S2 _ E1) as (d' & E' & X' & Y'). exists d, d'.
    repeat split; auto; congruence.
Qed.
Lemma acc_at_frozen ck w w' : frozen ck w w' -> (forall c c', dat (get w ck) = DConfig c -> dat (get w' ck) = DConfig c' ->
  cfg_last c = lam (get w ck)) -> acc_ok ck w -> acc_ok ck w' /\ acc_at w' ck = acc_at w ck.
Proof.
  intros (_ & c & c' & D & D' & A & L & M) F OKA. specialize (OKA _ D). specialize (F _ _ D D').
  split; [intros x; rewrite D'; intros [= <-]; lia|].
  rewrite (acc_at_eq _ _ _ D), (acc_at_eq _ _ _ D'). rewrite !acc_now_seen by lia. auto.
Qed.

Lemma revalidated_collects e w ck vhr vk vauth f w' :
  revalidated e w ck vhr (e_vault e ck) vk vauth f w' ->
  own (get w vk) = e_prog e -> belongs e ck vk (dat (get w vk)) -> acc_ok ck w ->
  total_lamports w' = total_lamports w ->
  collected e ck vk w w' /\ paid_out ck vauth None (pending e w ck vk) 0 w w'.
Proof.
  intros [] VO B A T. pose proof (harvested_sk _ _ _ _ _ _ _ _ _ H1) as NS.
  pose proof (settles_harvest _ _ _ _ _ _ _ _ _ H1 ltac:(discriminate)) as S1.
  assert (total_lamports w1 = total_lamports w) as T1.
  { pose proof (frozen_resync _ _ _ _ _ H3) as [F _]. rewrite H2, total_setd in F. congruence. }
  destruct (harvest_collects _ _ _ _ _ _ _ _ H1) as (C1 & c & D & P1); auto; try discriminate.
  destruct (S1) as (_ & c0 & c1 & D0 & D1 & _ & _ & F). rewrite D in D0. injection D0 as <-.
  destruct (F T1 (A _ D)) as [F1 F2].
  assert (frozen ck w1 w') as FZ.
  { apply frozen_trans with w2; [rewrite H2; eapply frozen_setd; eauto|eapply frozen_resync; eauto]. }
  destruct (acc_at_frozen _ _ _ FZ) as [A' Q]; [intros ? ? E _; rewrite D1 in E; injection E as <-; auto|exact (co_ok _ _ _ _ _ C1)|].
  destruct H3 as [c3 d3 l3 Hc3 Hd3 Hm3 He3 Hb3 Ho3 Hdat3 Hl3].
  assert (dat (get w2 vk) = DVal (set_v_total v t)) as DV by (rewrite H2; ws; rewrite N.eqb_refl; auto).
  rewrite DV in Hd3. injection Hd3 as <-.
  pose proof (Hdat3 vk) as K. rewrite (proj2 (N.eqb_neq _ _) NS), N.eqb_refl, DV in K. simpl in K.
  assert (forall k, own (get w' k) = own (get w1 k)) as OO by (intros; rewrite Ho3, H2; ws; auto).
  split.
  - eapply collected_after; eauto.
    + exact (co_ok _ _ _ _ _ C1).
    + intros k h. rewrite Hdat3. destruct (N.eqb_spec ck k) as [<-|]; [rewrite D1; split; discriminate|].
      destruct (N.eqb_spec vk k) as [<-|]; [rewrite DV, Hv; simpl; split; discriminate|].
      rewrite H2. ws. destruct (N.eqb_spec vk k); [congruence|tauto].
    + exists c1. eexists. split; [auto|]. split; [rewrite Hdat3, N.eqb_refl; reflexivity|]. simpl.
      rewrite H2 in Hc3. wsi Hc3. destruct (N.eqb_spec vk ck); [congruence|]. rewrite D1 in Hc3. now injection Hc3 as <-.
    + intros k KN. destruct (N.eq_dec k ck) as [->|].
      * rewrite (stake_of_config e w1 _ _ _ D1). pose proof (Hdat3 ck) as KC. rewrite N.eqb_refl in KC.
        exact (stake_of_config e w' _ _ _ KC).
      * apply stake_of_eq; [auto|]. intros _. rewrite Hdat3.
        destruct (N.eqb_spec ck k); [congruence|]. destruct (N.eqb_spec vk k); [congruence|]. rewrite H2. ws.
        destruct (N.eqb_spec vk k); congruence.
    + intros d1 SD. apply stake_of_some in SD as (O1 & DD & BB). rewrite Hv in DD. injection DD as <-. rewrite Hv in BB.
      eexists. split; [apply stake_of_intro; [now rewrite OO|rewrite K; reflexivity|rewrite K; exact BB]|]. auto.
  - intros k. rewrite Hl3, H2. ws. exact (P1 k).
Qed.

(** A settled stake account has no claim. *)
Definition settled (e : env) (ck k : pubkey) (w : world) : Prop := exists c d, dat (get w ck) = DConfig c /\
  stake_of e w ck k = Some d /\ last_stake d = acc_at w ck /\ last_holder d = holder_acc e w ck.
Lemma settled_zero e ck k w : settled e ck k w -> pending e w ck k = 0.
Proof. intros (c & d & D & S & A & B). rewrite (pending_eq _ _ _ _ _ D), S. now apply claim_settled. Qed.
Lemma collected_settled e ck sk w w' : collected e ck sk w w' -> settled e ck sk w'.
Proof.
  intros []. destruct co_cfg0 as (c & c' & D & D' & _), co_self0 as (d & d' & S & S' & X & Y). exists c', d'.
  repeat split; auto; congruence.
Qed.
Lemma settled_collected e ck sk k w w' : collected e ck sk w w' -> settled e ck k w -> settled e ck k w'.
Proof.
  intros C S. destruct (N.eq_dec k sk) as [->|NE]; [eapply collected_settled; eauto|].
  destruct S as (c & d & D & S & X & Y), C. destruct co_cfg0 as (c0 & c' & _ & D' & _). exists c', d.
  rewrite co_oth0 by auto. repeat split; auto; congruence.
Qed.
Record resized (e : env) (ck sk : pubkey) (w w' : world) : Prop := {
  rz_acc : acc_at w' ck = acc_at w ck;
  rz_hold : holder_acc e w' ck = holder_acc e w ck;
  rz_cfg : exists c', dat (get w' ck) = DConfig c';
  rz_oth : forall k, k <> sk -> stake_of e w' ck k = stake_of e w ck k;
  rz_self : forall d, stake_of e w ck sk = Some d -> exists d', stake_of e w' ck sk = Some d' /\
     last_stake d' = last_stake d /\ last_holder d' = last_holder d;
}.
Lemma settled_resized e ck sk k w w' : resized e ck sk w w' -> settled e ck k w -> settled e ck k w'.
Proof.
  intros [] (c & d & D & S & X & Y). destruct rz_cfg0 as [c' D'].
  destruct (N.eq_dec k sk) as [->|NE].
  - destruct (rz_self0 _ S) as (d' & S' & X' & Y'). exists c', d'. repeat split; auto; congruence.
  - exists c', d. rewrite rz_oth0 by auto. repeat split; auto; congruence.
Qed.

(** Everything up to the staker's own re-capping in a synchronising harvest. *)
Lemma reval_val e w ck vhr vs vk vauth f w' : revalidated e w ck vhr vs vk vauth f w' ->
  exists v, dat (get w vk) = DVal v /\ vauth = authority (v_del v).
Proof.
  intros []. destruct (harvested_net _ _ _ _ _ _ _ _ _ H1) as (c & d & h & rpt & sr & hr & RD & AU & _ & _ & _ & _ & S1 & _).
  pose proof (rd_d _ _ _ _ _ _ _ _ _ _ _ RD) as DD. rewrite (with_del_ok _ _ _ DD), Hv in S1.
  destruct (dat (get w vk)); try discriminate. injection DD as <-. eauto.
Qed.
Lemma reval_collects e w ck vt vhr vauth f w' : env_ok e -> sane e w ->
  own (get w (e_val e vt ck)) = e_prog e -> acc_ok ck w ->
  revalidated e w ck vhr (e_vault e ck) (e_val e vt ck) vauth f w' ->
  total_lamports w' = total_lamports w ->
  collected e ck (e_val e vt ck) w w' /\
  (forall k, lam (get w' k) + (if k =? ck then pending e w ck (e_val e vt ck) else 0) =
     lam (get w k) + share e w ck k (e_val e vt ck)).
Proof.
  intros OK S VO A H T. destruct (reval_val _ _ _ _ _ _ _ _ _ H) as (v & DV & AU).
  destruct (sane_val_belongs _ _ _ _ _ _ OK S VO DV eq_refl) as [VV SS].
  destruct (revalidated_collects _ _ _ _ _ _ _ _ H) as [C P]; auto; [rewrite DV; simpl; now rewrite VV|].
  split; [auto|]. intros k. rewrite (P k). unfold share. rewrite SS, <- AU, (N.eqb_sym vauth k), N.sub_0_r, N.add_0_r. reflexivity.
Qed.
Lemma share_collected e ck sk w w' x k : collected e ck sk w w' -> k <> sk ->
  share e w' ck x k = share e w ck x k.
Proof. intros C NE. unfold share. rewrite (co_oth _ _ _ _ _ C), (collected_pending _ _ _ _ _ _ C) by auto. reflexivity. Qed.
Lemma left_total e w a s w' : left_ok e w a s w' -> total_lamports w <= total_lamports w'.
Proof. intros []; [|subst; lia]. now destruct (settles_revalidated _ _ _ _ _ _ _ _ _ H). Qed.
Lemma joined_total e w a cv cs w' cv' cs' : joined_ok e w a cv cs w' cv' cs' -> total_lamports w <= total_lamports w'.
Proof. intros []; subst; try lia. now destruct (settles_revalidated _ _ _ _ _ _ _ _ _ H). Qed.

Record synced_all (e : env) (ck sk kp old new : pubkey) (w w' : world) : Prop := {
  sa_acc : acc_at w' ck = acc_at w ck;
  sa_hold : holder_acc e w' ck = holder_acc e w ck;
  sa_list : exists ks c, NoDup ks /\ (forall x, In x ks <-> settles_with e w ck sk old new x) /\
    config_at e w ck c /\
    (forall x, In x ks -> settled e ck x w') /\
    (forall x, ~ In x ks -> stake_of e w' ck x = stake_of e w ck x) /\
    (forall d, stake_of e w ck sk = Some d -> forall k,
       lam (get w' k) + (if k =? ck then sum_over (pending e w ck) ks else 0) +
         (if k =? authority d then N.min (pending e w ck sk) (cfg_sync c) else 0) =
       lam (get w k) + (if k =? kp then N.min (pending e w ck sk) (cfg_sync c) else 0) +
         sum_over (share e w ck k) ks);
}.
Lemma sol_resized e w ck sk s cv cs w' : dat (get w sk) = DSol s -> sk <> ck ->
  (forall c, dat (get w ck) = DConfig c -> cfg_last c = lam (get w ck)) -> acc_ok ck w ->
  resynced (setd w sk (DSol (SStake (set_vote (s_del s) cv) cs (s_native s)))) ck sk (N.max cs 0) w' ->
  resized e ck sk w w' /\ (forall k, lam (get w' k) = lam (get w k)) /\ total_lamports w' = total_lamports w.
Proof.
  intros DS NE L A R. pose proof (frozen_resync _ _ _ _ _ R) as FR. destruct R.
  assert (dat (get w ck) = DConfig c) as DC by (wsi Hc; destruct (N.eqb_spec sk ck); congruence).
  assert (frozen ck w w') as FZ by (eapply frozen_trans; [eapply frozen_setd; eauto|eauto]).
  destruct (acc_at_frozen _ _ _ FZ) as [A' Q]; [intros; eauto|auto|].
  wsi Hd. rewrite N.eqb_refl in Hd. injection Hd as <-.
  split; [|split; [intros; rewrite Hlams; ws; auto|exact (proj1 FZ)]].
  split; auto.
  - apply holder_acc_hframe. intros k h. rewrite Hdat. ws. destruct (N.eqb_spec ck k) as [<-|]; [rewrite DC; split; discriminate|].
    rewrite N.eqb_refl. destruct (N.eqb_spec sk k) as [<-|]; [rewrite DS; simpl; split; discriminate|]. tauto.
  - eexists. rewrite Hdat, N.eqb_refl. reflexivity.
  - intros k K. destruct (N.eq_dec k ck) as [->|].
    + pose proof (Hdat ck) as KC. rewrite N.eqb_refl in KC. rewrite (stake_of_config _ _ _ _ _ KC). symmetry.
      eapply stake_of_config; eauto.
    + apply stake_of_eq; [rewrite Ho; ws; auto|]. intros _. rewrite Hdat. ws.
      destruct (N.eqb_spec ck k); [congruence|]. destruct (N.eqb_spec sk k); congruence.
  - intros d S. apply stake_of_some in S as (O & D & B). rewrite DS in D, B. injection D as <-.
    pose proof (Hdat sk) as K. wsi K. rewrite !N.eqb_refl in K. destruct (N.eqb_spec ck sk); [congruence|]. simpl in K.
    eexists. split; [apply stake_of_intro; [rewrite Ho; ws; auto|rewrite K; reflexivity|rewrite K; exact B]|]. auto.
Qed.
Lemma collected_settles e ck sk w w' : collected e ck sk w w' -> settled e ck sk w'.
Proof. exact (collected_settled e ck sk w w'). Qed.
Lemma last_settles ck w w' : settles ck w w' -> acc_ok ck w -> total_lamports w' = total_lamports w ->
  forall c, dat (get w' ck) = DConfig c -> cfg_last c = lam (get w' ck).
Proof.
  intros (_ & c & c' & D & D' & _ & _ & F) A T x X. rewrite D' in X. injection X as <-. now apply F; auto.
Qed.

Lemma harvest_sol_collects e cx a w w' : env_ok e -> sane e w -> acc_ok (hs_config a) w ->
  harvested_sol_ok e cx a w w' -> total_lamports w' = total_lamports w ->
  exists s vw, sol_at e w (hs_stake a) s /\ stake_of e w (hs_config a) (hs_stake a) = Some (s_del s) /\
    c_view cx = Some vw /\ hs_authority a = authority (s_del s) /\
    ((vw_effective vw = s_lamports s /\ vw_vote vw = vote (s_del s)) /\
     collected e (hs_config a) (hs_stake a) w w' /\
     paid_out (hs_config a) (authority (s_del s)) None (pending e w (hs_config a) (hs_stake a)) 0 w w' \/
     (vw_effective vw <> s_lamports s \/ vw_vote vw <> vote (s_del s)) /\
     exists kp, hs_keeper a = Some kp /\
       (kp <> hs_config a ->
        synced_all e (hs_config a) (hs_stake a) kp (vote (s_del s)) (vw_vote vw) w w')).
Proof.
  intros OK S A H T. destruct H.
  - assert (stake_of e w (hs_config a) (hs_stake a) = Some (s_del s)) as SS.
    { apply stake_of_intro; auto; rewrite Hs; auto. }
    exists s, vw. split; [split; auto|]. split; [auto|]. split; [auto|]. split; [auto|]. left. split; [auto|].
    destruct (harvest_collects _ _ _ _ _ _ _ _ H1) as (C1 & c & D & P1); auto; try discriminate.
    { rewrite Hs. exact Hk. }
    split; [auto|]. rewrite <- Hau. exact P1.
  - assert (stake_of e w (hs_config a) (hs_stake a) = Some (s_del s)) as SS.
    { apply stake_of_intro; auto; rewrite Hs; auto. }
    exists s, vw. split; [split; auto|]. split; [auto|]. split; [auto|]. split; [auto|]. right. split; [auto|].
    exists kp. split; [auto|]. intros NK.
    set (ck := hs_config a) in *. set (sk := hs_stake a) in *.
    assert (Some kp <> Some ck) as NK' by congruence.
    pose proof (settles_harvest _ _ _ _ _ _ _ _ _ H1 NK') as S1.
    pose proof (left_total _ _ _ _ _ H2) as L2. pose proof (joined_total _ _ _ _ _ _ _ _ H3) as L3.
    pose proof (harvested_sk _ _ _ _ _ _ _ _ _ H1) as NS.
    assert (total_lamports w' = total_lamports w3) as T5.
    { pose proof (frozen_resync _ _ _ _ _ H5) as [F _]. rewrite H4, total_setd in F. exact F. }
    assert (total_lamports w1 = total_lamports w) as T1 by (destruct S1; lia).
    assert (total_lamports w2 = total_lamports w1) as T2 by (destruct S1; lia).
    assert (total_lamports w3 = total_lamports w2) as T3 by (destruct S1; lia).
    destruct (harvest_collects _ _ _ _ _ _ _ _ H1 NK') as (C1 & c & D & P1); auto.
    { fold sk in Hs. rewrite Hs. exact Hk. }
    pose proof (evolves_harvest _ _ _ _ _ _ _ _ _ H1) as E1.
    pose proof (sane_evolves _ _ _ S E1) as SA1.
    assert (s1 = set_s_del s (s_del s1) /\ vote (s_del s1) = vote (s_del s) /\ authority (s_del s1) = authority (s_del s))
      as (Y1 & Y2 & Y3).
    { destruct (harvested_net _ _ _ _ _ _ _ _ _ H1) as (x1 & d1 & x3 & x4 & x5 & x6 & RD & _ & _ & _ & _ & _ & Q & _).
      rewrite Hs in Q. cbn in Q. rewrite Hs1 in Q. injection Q as ->. auto. }
    assert (A1 := co_ok _ _ _ _ _ C1).
    assert (forall vt, e_val e vt ck <> sk) as NV.
    { intros vt. rewrite Hk. apply (ok_val_sol _ OK). }
    assert (forall x, own (get w1 x) = own (get w x)) as O1 by (apply (co_own _ _ _ _ _ C1)).
    (* leaving the old validator *)
    assert (settled e ck sk w2 /\ acc_ok ck w2 /\ sane e w2 /\ (forall x, own (get w2 x) = own (get w x)) /\
      acc_at w2 ck = acc_at w ck /\ holder_acc e w2 ck = holder_acc e w ck /\
      (forall c, dat (get w2 ck) = DConfig c -> cfg_last c = lam (get w2 ck)) /\
      exists ks, NoDup ks /\ (forall x, In x ks <-> vote (s_del s) <> 0 /\ x = e_val e (vote (s_del s)) ck) /\
        (forall x, In x ks -> settled e ck x w2) /\
        (forall x, x <> sk -> ~ In x ks -> stake_of e w2 ck x = stake_of e w ck x) /\
        forall k, lam (get w2 k) + (if k =? ck then sum_over (pending e w ck) ks else 0) =
                  lam (get w1 k) + sum_over (share e w ck k) ks) as (Z1 & Z2 & Z3 & Z4 & Z5 & Z6 & Z7 & ks2 & Z8 & Z9 & Z10 & Z11 & Z12).
    { destruct H2.
      - rewrite Y2 in *. fold ck in Hk0, H. rewrite Hk0 in *.
        assert (e_val e (vote (s_del s)) ck <> sk) as NN by auto.
        destruct (reval_collects _ _ _ _ _ _ _ _ OK SA1 Ho A1 H T2) as [C2 P2].
        split; [eapply settled_collected; [exact C2|]; eapply collected_settled; eauto|].
        split; [exact (co_ok _ _ _ _ _ C2)|].
        split; [eapply sane_evolves; [exact SA1|eapply evolves_revalidated; eauto]|].
        split; [intros; rewrite (co_own _ _ _ _ _ C2); auto|].
        split; [rewrite (co_acc _ _ _ _ _ C2); apply (co_acc _ _ _ _ _ C1)|].
        split; [rewrite (co_hold _ _ _ _ _ C2); apply (co_hold _ _ _ _ _ C1)|].
        split; [eapply last_settles; [exact (settles_revalidated _ _ _ _ _ _ _ _ _ H)|auto|auto]|].
        exists [e_val e (vote (s_del s)) ck]. split; [apply NoDup_singleton|].
        split; [intros x; simpl; split; [intros [<-|[]]; auto|intros [_ ->]; auto]|].
        split; [intros x [<-|[]]; eapply collected_settled; eauto|].
        split; [intros x N1 N2; simpl in N2; rewrite (co_oth _ _ _ _ _ C2) by intuition; apply (co_oth _ _ _ _ _ C1); auto|].
        intros k. cbn [sum_over]. rewrite !N.add_0_r. rewrite <- (collected_pending _ _ _ _ _ _ C1 NN), <- (share_collected _ _ _ _ _ k _ C1 NN).
        exact (P2 k).
      - subst w2. split; [eapply collected_settled; eauto|]. split; [auto|]. split; [auto|]. split; [auto|].
        split; [exact (co_acc _ _ _ _ _ C1)|]. split; [exact (co_hold _ _ _ _ _ C1)|].
        split; [eapply last_settles; eauto|]. exists []. split; [constructor|].
        split; [intros x; simpl; split; [tauto|rewrite <- Y2; tauto]|]. split; [simpl; tauto|].
        split; [intros x N1 _; apply (co_oth _ _ _ _ _ C1); auto|]. intros k. simpl. destruct (k =? ck); lia. }
    (* joining the new one *)
    assert (settled e ck sk w3 /\ acc_ok ck w3 /\ acc_at w3 ck = acc_at w ck /\ holder_acc e w3 ck = holder_acc e w ck /\
      (forall c, dat (get w3 ck) = DConfig c -> cfg_last c = lam (get w3 ck)) /\
      exists ks, NoDup ks /\ (forall x, In x ks <-> (vote (s_del s) <> 0 /\ x = e_val e (vote (s_del s)) ck) \/
          (vw_vote vw <> 0 /\ x = e_val e (vw_vote vw) ck /\ own (get w x) = e_prog e)) /\
        (forall x, In x ks -> settled e ck x w3) /\
        (forall x, x <> sk -> ~ In x ks -> stake_of e w3 ck x = stake_of e w ck x) /\
        forall k, lam (get w3 k) + (if k =? ck then sum_over (pending e w ck) ks else 0) =
                  lam (get w1 k) + sum_over (share e w ck k) ks) as (U1 & U2 & U3 & U4 & U5 & ks3 & U6 & U7 & U8 & U9 & U10).
    { destruct H3.
      - fold ck in Hk0, H. rewrite Hk0 in *. set (vk := e_val e (vw_vote vw) ck) in *.
        assert (vk <> sk) as NN by (apply NV).
        destruct (reval_collects _ _ _ _ _ _ _ _ OK Z3 Ho Z2 H T3) as [C3 P3]. fold vk in C3, P3.
        split; [eapply settled_collected; eauto|]. split; [exact (co_ok _ _ _ _ _ C3)|].
        split; [rewrite (co_acc _ _ _ _ _ C3); auto|]. split; [rewrite (co_hold _ _ _ _ _ C3); auto|].
        split; [eapply last_settles; [exact (settles_revalidated _ _ _ _ _ _ _ _ _ H)|auto|auto]|].
        destruct (in_dec N.eq_dec vk ks2) as [I|NI].
        + exists ks2. split; [auto|].
          split. { intros x. rewrite Z9. split; [tauto|]. intros [X|(X & -> & _)]; [auto|]. fold vk. now apply Z9. }
          split; [intros x X; eapply settled_collected; eauto|].
          split; [intros x X1 X2; rewrite (co_oth _ _ _ _ _ C3) by congruence; auto|].
          intros k. specialize (P3 k). specialize (Z12 k).
          pose proof (settled_zero _ _ _ _ (Z10 _ I)) as PZ. rewrite PZ in P3.
          assert (share e w2 ck k vk = 0) as SZ.
          { unfold share. destruct (stake_of e w2 ck vk); auto. rewrite PZ. destruct (authority d =? k); auto. }
          rewrite SZ in P3. destruct (k =? ck); lia.
        + assert (stake_of e w2 ck vk = stake_of e w ck vk) as SV by auto.
          destruct Z1 as (c2 & d2 & D2 & _).
          assert (pending e w2 ck vk = pending e w ck vk) as PV.
          { rewrite (pending_eq _ _ _ _ _ D2), (pending_eq _ _ _ _ _ D). now rewrite Z5, Z6, SV. }
          exists (vk :: ks2). split; [constructor; auto; now rewrite elem_of_list_In|].
          split. { intros x. simpl. rewrite Z9. split; [intros [<-|X]; [right; rewrite <- Z4; auto|auto]|].
            intros [X|(X & -> & _)]; auto. }
          split; [intros x [<-|X]; [eapply collected_settled; eauto|eapply settled_collected; eauto]|].
          split; [intros x X1 X2; simpl in X2; rewrite (co_oth _ _ _ _ _ C3) by intuition; apply Z11; intuition|].
          intros k. specialize (P3 k). specialize (Z12 k). cbn [sum_over]. rewrite PV in P3.
          assert (share e w2 ck k vk = share e w ck k vk) as SH by (unfold share; now rewrite SV, PV).
          rewrite SH in P3. destruct (k =? ck); lia.
      - subst w3. repeat (split; [assumption|]). exists ks2. split; [auto|].
        split. { intros x. rewrite Z9. split; [tauto|]. intros [X|(X & -> & X3)]; [auto|]. exfalso. apply Ho.
          fold ck in Hk0. rewrite Hk0, Z4. auto. }
        auto.
      - subst w3. repeat (split; [assumption|]). exists ks2. split; [auto|].
        split. { intros x. rewrite Z9. split; [tauto|]. intros [X|(X & _)]; [auto|congruence]. }
        auto. }
    subst w4. assert (sk <> ck) as NS' by auto. destruct (sol_resized e _ _ _ _ _ _ _ Hs3 NS' U5 U2 H5) as (RZ & LZ & _).
    split; [rewrite (rz_acc _ _ _ _ _ RZ); auto|rewrite (rz_hold _ _ _ _ _ RZ); auto|].
    assert (~ In sk ks3) as NI.
    { rewrite U7. intros [(_ & X)|(_ & X & _)]; symmetry in X; revert X; apply NV. }
    exists (sk :: ks3), c. split; [constructor; auto; now rewrite elem_of_list_In|].
    split; [intros x; simpl; rewrite U7; unfold settles_with; intuition|].
    split; [split; auto|].
    split; [intros x [<-|X]; eapply settled_resized; eauto|].
    split; [intros x X; simpl in X; rewrite (rz_oth _ _ _ _ _ RZ) by intuition; apply U9; intuition|].
    intros d SD k. assert (d = s_del s) as -> by congruence. rewrite LZ. specialize (U10 k). specialize (P1 k).
    cbn [sum_over keeper_part] in *. set (p := pending e w ck sk) in *.
    assert (share e w ck k sk = if k =? authority (s_del s) then p else 0) as SH.
    { unfold share. rewrite SS. fold p. now rewrite (N.eqb_sym k). }
    rewrite SH, (N.eqb_sym k kp). rewrite Hau in P1.
    pose proof (N.le_min_l p (cfg_sync c)). set (m := N.min p (cfg_sync c)) in *. clearbody m p.
    destruct (k =? ck), (k =? authority (s_del s)), (kp =? k); lia.
Qed.
