(** When the instructions that call other programs go through. *)
From Verif Require Import Base Types Layout Math External Processor Runtime History Spec SpecReward SpecLive
  WorldLemmas Effects Handlers Evolve Sane Wf Totals Arith Nets Caps Stakers Deposits Inv Life Rewards Collect Progress Solvency Live.

(** ** Calls to the other programs *)
Lemma token_at_runs e w k t : own (get w k) = e_token e -> dat (get w k) = DToken t -> token_at e w k = Ok t.
Proof. intros O D. unfold token_at. cbv zeta. rewrite require_true by now apply N.eqb_eq. now rewrite D. Qed.
Lemma mint_at_runs e w k m : own (get w k) = e_token e -> dat (get w k) = DMint m -> mint_at e w k = Ok m.
Proof. intros O D. unfold mint_at. cbv zeta. rewrite require_true by now apply N.eqb_eq. now rewrite D. Qed.
Lemma transfer_runs e sig w src mnt dst auth n s d m o :
  liquid e w src mnt auth s -> liquid e w dst mnt o d -> src <> dst -> own (get w mnt) = e_token e ->
  dat (get w mnt) = DMint m -> sig auth = true -> n <= t_amount s -> t_amount d + n < U64 ->
  token_transfer e sig w src mnt dst auth n =
    Ok (setd (setd w src (DToken (set_t_amount s (t_amount s - n)))) dst (DToken (set_t_amount d (t_amount d + n)))).
Proof.
  intros (So & Sd & Sm & Sw & Sf & Sl) (Do & Dd & Dm & Dw & Df & Dl) NE Mo Md SG LE RM. unfold token_transfer.
  rewrite (token_at_runs _ _ _ _ So Sd), bind_Ok, (token_at_runs _ _ _ _ Do Dd), bind_Ok.
  rewrite require_true by now rewrite Sf, Df. rewrite require_true by now apply N.leb_le.
  rewrite require_true by now rewrite Sm, Dm, N.eqb_refl. rewrite (mint_at_runs _ _ _ _ Mo Md), bind_Ok.
  assert (token_authorise sig s auth n = Ok s) as TA.
  { unfold token_authorise. cbv zeta. rewrite Sw, N.eqb_refl, SG. cbn [andb]. rewrite require_true by auto.
    destruct (t_delegate s) as [x|]; auto. destruct (N.eqb_spec x auth); [congruence|auto]. }
  rewrite TA, bind_Ok. rewrite (proj2 (N.eqb_neq _ _) NE). rewrite require_true by now apply N.ltb_lt. reflexivity.
Qed.
Lemma pool_pay_runs w pool owner r : r <= lam (get w pool) -> total_lamports w < U64 -> exists w', pool_pay w pool owner r = Ok w'.
Proof.
  intros L T. unfold pool_pay. destruct (N.eqb_spec r 0); [eauto|]. rewrite require_true by now apply N.leb_le. cbv zeta.
  rewrite require_true; [eauto|]. apply N.ltb_lt. ws. destruct (N.eqb_spec pool owner) as [->|NE].
  - pose proof (total_ge w owner). lia.
  - pose proof (total_ge2 w _ _ NE). lia.
Qed.
Lemma pool_reward_runs acc last dep : since acc last * dep < U128 -> since acc last * dep / 10 ^ 18 < U64 ->
  exists r, pool_reward acc last dep = Ok r.
Proof.
  intros A B. unfold pool_reward. cbv zeta. rewrite since_wsub. destruct (since acc last =? 0); [eauto|].
  rewrite (proj2 (N.ltb_lt _ _) A). change 1000000000000000000 with (10 ^ 18). rewrite (proj2 (N.ltb_lt _ _) B). eauto.
Qed.
Lemma liquid_setd e w k m o t j D : liquid e w k m o t -> j <> k -> liquid e (setd w j D) k m o t.
Proof. intros (A & B & C) NE. repeat split; try apply C; ws; auto. destruct (N.eqb_spec j k); [congruence|auto]. Qed.
Lemma liquid_same e w w' k m o t : liquid e w k m o t -> own (get w' k) = own (get w k) -> dat (get w' k) = dat (get w k) ->
  liquid e w' k m o t.
Proof. intros (A & B & C) O D. repeat split; try apply C; congruence. Qed.

Lemma withdraw_runs e sig w pool ptok vhr tacc mnt owner tp n acc h t p m :
  pool = e_pool e mnt -> own (get w pool) = e_rewards e -> vhr = e_holder e owner -> own (get w vhr) = e_rewards e ->
  dat (get w vhr) = DHolder h -> sig owner = true -> tp = e_token e ->
  own (get w mnt) = e_token e -> dat (get w mnt) = DMint m ->
  liquid e w tacc mnt owner t -> liquid e w ptok mnt pool p -> tacc <> ptok ->
  h_deposited h <= t_amount p -> 0 < n -> n <= h_deposited h -> h_deposited h < U64 -> t_amount t + n < U64 ->
  since acc (h_last h) * h_deposited h < U128 -> since acc (h_last h) * h_deposited h / 10 ^ 18 < U64 ->
  total_lamports w < U64 ->
  exists w', rewards_withdraw e sig w pool ptok vhr tacc mnt owner tp n acc = Ok w' /\
    liquid e w' tacc mnt owner (set_t_amount t (t_amount t + n)) /\
    (forall k, k <> vhr -> k <> tacc -> k <> ptok -> dat (get w' k) = dat (get w k)) /\
    (forall k, own (get w' k) = own (get w k)) /\
    exists r, r <= lam (get w pool) /\ (forall k, lam (get w' k) = pay_lam w pool owner r k).
Proof.
  intros PE PO VE VO Hh SG TP MO MD LT LP NE DP N0 ND HB RM R1 R2 TT. unfold rewards_withdraw.
  destruct LT as (To & Td & Tm & Tw & Tf & Tl) eqn:LTE. destruct LP as (Po & Pd & Pm & Pw & Pf & Pl) eqn:LPE. clear LTE LPE.
  unfold rewards_checked. rewrite require_true by (rewrite PE at 1; rewrite PO; now rewrite !N.eqb_refl).
  rewrite (token_at_runs _ _ _ _ Po Pd), bind_Ok. rewrite require_true by now rewrite Pw, Pm, !N.eqb_refl.
  rewrite require_true by auto. rewrite require_true by (rewrite VE at 1; rewrite VO; now rewrite !N.eqb_refl).
  rewrite Hh, bind_Ok. rewrite (token_at_runs _ _ _ _ To Td), bind_Ok. rewrite require_true by now rewrite Tw, Tm, !N.eqb_refl.
  rewrite require_true by now apply N.eqb_eq. cbv zeta.
  assert ((if n =? U64 - 1 then h_deposited h else n) = n) as AM. { destruct (N.eqb_spec n (U64 - 1)); lia. }
  rewrite AM. rewrite bind_Ok. rewrite require_true.
  2:{ rewrite (proj2 (N.leb_le _ _) DP). destruct (N.eqb_spec (h_deposited h) 0); [lia|reflexivity]. }
  rewrite require_true by now apply N.leb_le.
  destruct (pool_reward_runs _ _ _ R1 R2) as [r Er]. rewrite Er, bind_Ok.
  set (w1 := setd w vhr _).
  assert (vhr <> tacc) as N1 by congruence. assert (vhr <> ptok) as N2 by congruence. assert (vhr <> mnt) as N3 by congruence.
  assert (liquid e w1 ptok mnt pool p) as L1 by (apply liquid_setd; auto).
  assert (liquid e w1 tacc mnt owner t) as L2' by (apply liquid_setd; auto).
  pose proof (transfer_runs e (fun k => k =? pool) w1 ptok mnt tacc pool n p t m owner L1 L2' ltac:(auto)) as TR.
  rewrite TR; [|unfold w1; ws; auto| |apply N.eqb_refl|lia|auto]; clear TR.
  2:{ unfold w1. ws. destruct (N.eqb_spec vhr mnt); [congruence|auto]. }
  rewrite bind_Ok. set (w2 := setd (setd w1 ptok _) tacc _).
  assert (forall k, lam (get w2 k) = lam (get w k)) as L2 by (intros k; unfold w2, w1; now ws).
  set (r' := if r <=? pool_available e w pool then r else 0).
  assert (r' <= lam (get w pool)) as RL.
  { unfold r'. destruct (N.leb_spec r (pool_available e w pool)) as [L|_]; [|lia]. unfold pool_available in L. lia. }
  destruct (pool_pay_runs w2 pool owner r') as [w' P]; [now rewrite L2|rewrite (total_same w w2); auto|].
  exists w'. split; [exact P|]. apply pool_pay_ok in P as (Q0 & Q1 & Q2 & Q3 & Q4).
  assert (forall k, own (get w2 k) = own (get w k)) as O2 by (intros k; unfold w2, w1; now ws).
  split; [|split; [|split]].
  - repeat split; auto; try (rewrite ?Q1, ?Q2; unfold w2, w1; ws; auto). now rewrite N.eqb_refl.
  - intros k K1 K2 K3. rewrite Q2. unfold w2, w1. ws. keys; congruence.
  - intros k. now rewrite Q1, O2.
  - exists r'. split; [auto|]. intros k. rewrite Q3. unfold pay_lam. now rewrite !L2.
Qed.

(** ** Lamport balance at a call *)
Definition lsum (w : world) (ks : list pubkey) : N := fold_right (fun k s => lam (get w k) + s) 0 ks.
Lemma lsum_same w w' ks : (forall k, In k ks -> lam (get w' k) = lam (get w k)) -> lsum w' ks = lsum w ks.
Proof. induction ks as [|k ks IH]; simpl; auto. intros H. rewrite H, IH by auto. auto. Qed.
Lemma lsum_setl w a x ks : NoDup ks -> In a ks -> lsum (setl w a x) ks + lam (get w a) = lsum w ks + x.
Proof.
  intros ND. induction ND as [|k ks NI ND IH]; simpl; [tauto|]. rewrite elem_of_list_In in NI. intros I.
  destruct (N.eq_dec k a) as [->|NE].
  - ws. rewrite N.eqb_refl. rewrite (lsum_same w _ ks); [lia|]. intros j J. ws. destruct (N.eqb_spec a j); [congruence|auto].
  - destruct I as [|I]; [congruence|]. specialize (IH I). ws. destruct (N.eqb_spec a k); [congruence|]. lia.
Qed.
Lemma lam_sum_pay w w' pool owner r ks : r <= lam (get w pool) -> (forall k, lam (get w' k) = pay_lam w pool owner r k) ->
  In pool ks -> In owner ks -> lam_sum w' ks = lam_sum w ks.
Proof.
  intros R L IP IO. unfold lam_sum. change (lsum w' (nodup N.eq_dec ks) = lsum w (nodup N.eq_dec ks)).
  assert (NoDup (nodup N.eq_dec ks)) as ND by (apply NoDup_ListNoDup, NoDup_nodup).
  rewrite <- (nodup_In N.eq_dec) in IP. rewrite <- (nodup_In N.eq_dec) in IO.
  set (l := nodup N.eq_dec ks) in *. clearbody l.
  destruct (N.eq_dec r 0) as [->|NZ]; [apply lsum_same; intros k _; rewrite L; reflexivity|].
  set (w1 := setl w pool (lam (get w pool) - r)). set (w2 := setl w1 owner (lam (get w1 owner) + r)).
  transitivity (lsum w2 l).
  - apply lsum_same. intros k _. rewrite L. unfold w2, w1, pay_lam. rewrite (proj2 (N.eqb_neq _ _) NZ). ws. reflexivity.
  - pose proof (lsum_setl w pool (lam (get w pool) - r) l ND IP) as A. fold w1 in A.
    pose proof (lsum_setl w1 owner (lam (get w1 owner) + r) l ND IO) as B. fold w2 in B. lia.
Qed.
Lemma lam_sum_same w w' ks : (forall k, In k ks -> lam (get w' k) = lam (get w k)) -> lam_sum w' ks = lam_sum w ks.
Proof. intros H. apply lsum_same. intros k I. apply H. now apply nodup_In in I. Qed.
Lemma cpi_runs {B} w0 w ck sk ks (f : unit -> result B) : ~ In ck ks -> ~ In sk ks -> lam_sum w ks = lam_sum w0 ks ->
  bind (cpi_check w0 w [ck; sk] ks) f = f tt.
Proof.
  intros A C L. unfold cpi_check. rewrite require_true.
  - rewrite require_true; [reflexivity|]. now apply N.eqb_eq.
  - apply negb_true_iff. apply not_true_is_false. intros E. apply existsb_exists in E as (k & I & E).
    simpl in E. rewrite orb_false_r in E. apply orb_true_iff in E as [E|E]; apply N.eqb_eq in E; congruence.
Qed.

Lemma load_any_runs e w ck sk d : stake_of e w ck sk = Some d ->
  exists l lmin, load_any e w sk ck = Ok (sk, l, lmin) /\
    ((exists v, dat (get w sk) = DVal v /\ l = v_total v /\ lmin = v_min v) \/
     (exists s, dat (get w sk) = DSol s /\ l = s_lamports s /\ lmin = 0)).
Proof.
  intros S. apply stake_of_some in S as (O & D & B). unfold load_any. cbv zeta.
  apply del_of_ok in D as [(v & D & <-)|(s & D & <-)]; rewrite D in *; simpl in B.
  - exists (v_total v), (v_min v). cbn. rewrite <- B. eauto 7.
  - exists (s_lamports s), 0. cbn. rewrite <- B. eauto 7.
Qed.

Lemma cpi_incl1 a : incl [un_pool a; un_ptok a; un_vhr a; un_vault a; un_mint a; un_vault_pda a; un_tokprog a] (unstake_cpi a).
Proof. intros k. unfold unstake_cpi. simpl. tauto. Qed.
Lemma cpi_incl2 a : incl ([un_pool a; un_ptok a; un_vhr a; un_vault a; un_mint a; un_vault_pda a; un_tokprog a] ++
  [un_vault a; un_mint a; un_dest a; un_vault_pda a]) (unstake_cpi a).
Proof. intros k. unfold unstake_cpi. simpl. tauto. Qed.
Lemma cpi_in a : In (un_pool a) (unstake_cpi a) /\ In (un_ptok a) (unstake_cpi a) /\ In (un_vhr a) (unstake_cpi a) /\
    In (un_vault a) (unstake_cpi a) /\ In (un_mint a) (unstake_cpi a) /\ In (un_vault_pda a) (unstake_cpi a) /\
    In (un_dest a) (unstake_cpi a).
Proof. unfold unstake_cpi. simpl. tauto. Qed.

Lemma limits_fit D : wf_data D -> cap_fits D -> forall l lmin,
  ((exists v, D = DVal v /\ l = v_total v /\ lmin = v_min v) \/ (exists s, D = DSol s /\ l = s_lamports s /\ lmin = 0)) ->
  N.max l lmin < U64 /\ cap (N.max l lmin) < U64.
Proof.
  intros W [CV CS] l lmin [(v & E & -> & ->)|(s & E & -> & ->)]; rewrite E in W; cbn in W.
  - specialize (CV _ E). unfold cappable in CV. change U64 with (2 ^ 64). split; [change (2 ^ 64) with U64; lia|lia].
  - specialize (CS _ E). rewrite N.max_0_r. change U64 with (2 ^ 64). split; [change (2 ^ 64) with U64; lia|lia].
Qed.

Lemma unstake_goes e cx a n w c d : env_ok e -> inv e w -> settled_chain e w (un_config a) ->
  good_unstake e cx a n w c d -> c_now cx < U64 -> exists w', run e cx (CUnstakeTokens a n) w = Ok w'.
Proof.
  intros OK I [[h HH] TT] G NOW. destruct G as [C S (AU & SG & NAC & NAI) (VE & PDA) (VHR & VHO) (PE & PO) (MO & m & MD) (TP & TPO)
    (vt & LV & RV) (pt & LP & DP) (dt & o & LD & RD & ND1 & ND2) (RW1 & RW2) (N0 & NM & CD) CAPS (ks & NDK & KS & PAY) WR].
  remember (un_config a) as ck eqn:CK. remember (un_stake a) as sk eqn:SKE.
  pose proof (ready_inv _ _ _ _ _ I C HH TT) as RY.
  pose proof (sum_over_in (pending e w ck) _ _ (KS sk eq_refl)) as PSK.
  destruct (harvest_goes e ck w c sk d (un_authority a) (un_vhr a) None OK RY C S AU NAC ltac:(discriminate) VHR) as
    (w1 & R1 & H1 & G1 & ac & ho & D1 & a' & l' & C1); [lia|].
  pose proof S as S'. apply stake_of_some in S' as (SO & SD & SB).
  destruct (sane_cfg _ _ (i_sane _ _ I) _ _ C) as (NPC & BPS & _ & VPO & VPD). 
  assert (sk <> ck) as NSC. { intros ->. rewrite (proj2 C) in SD. discriminate. }
  set (d1 := set_lasts d ho ac) in *. set (c1 := set_cfg_last (set_cfg_acc c a') l') in *.
  assert (del_of (dat (get w1 sk)) = Ok d1) as SD1 by (rewrite D1; eapply del_of_upd'; eauto).
  assert (config_at e w1 ck c1) as CA1 by (split; [rewrite (go_own _ _ _ _ _ _ _ _ G1); apply C|auto]).
  assert (stake_of e w1 ck sk = Some d1) as S1.
  { apply stake_of_intro; [rewrite (go_own _ _ _ _ _ _ _ _ G1); auto|auto|]. 
    refine (same_id_belongs _ _ _ _ _ _ SB). rewrite D1. apply (same_id_upd _ _ _ SD); reflexivity. }
  pose proof (go_ready _ _ _ _ _ _ _ _ G1) as RY1.
  destruct (ready_room _ _ _ _ _ _ RY1 CA1 S1) as [RM1 RM2].
  destruct (load_any_runs _ _ _ _ _ S) as (l & lmin & LA & LC).
  pose proof (wf_dat _ sk (i_wf _ _ I)) as WD.
  assert (wf_del d) as WFD.
  { apply del_of_ok in SD as [(v & E & <-)|(s & E & <-)]; rewrite E in WD; cbn in WD; tauto. }
  assert (N.max l lmin < U64 /\ cap (N.max l lmin) < U64) as [LB1 LB2].
  { exact (limits_fit _ WD CAPS _ _ LC). }
  assert (n <= staked d) as NS.
  { apply (N.le_trans _ _ _ NM). apply N.div_le_upper_bound; [lia|]. rewrite (N.mul_comm 10000). now apply N.mul_le_mono_l. }
  assert (n <= h_deposited h /\ h_deposited h < U64 /\ deposit e w ck = h_deposited h) as (NH & HB & DE).
  { pose proof (i_backed _ _ I ck) as B. unfold deposit in *. rewrite HH in *.
    pose proof (sum_of_ge e w ck staked sk d S). pose proof (wf_dat _ (e_holder e (e_vault e ck)) (i_wf _ _ I)) as W.
    rewrite HH in W. simpl in W. split; [lia|]. split; [tauto|auto]. }
  assert (holder_acc e w ck = h_last h) as HA by (unfold holder_acc; now rewrite HH).
  set (dn := set_cooldown (set_staked d1 (staked d - n)) (sat_add64 (c_now cx) (cfg_cooldown c))).
  set (w2 := put_del w1 sk dn).
  assert (dat (get w2 ck) = DConfig c1) as C2.
  { unfold w2, put_del. ws. destruct (N.eqb_spec sk ck); [congruence|auto]. }
  assert (del_of (dat (get w2 sk)) = Ok dn) as SD2.
  { unfold w2, put_del. ws. rewrite N.eqb_refl. eapply del_of_upd'; eauto. }
  destruct (sync_runs w2 ck sk l lmin c1 dn) as [w3 R3]; auto.
  { unfold dn. cbn [effective staked set_cooldown set_staked]. unfold d1, c1 in *.
    cbn [effective staked set_lasts cfg_effective set_cfg_last set_cfg_acc] in *. lia. }
  pose proof (sync_effective_ok _ _ _ _ _ _ R3) as Y3.
  assert (total_lamports w3 = total_lamports w) as T3.
  { rewrite (proj1 (frozen_resync _ _ _ _ _ Y3)). unfold w2, put_del. rewrite total_setd. apply (go_tot _ _ _ _ _ _ _ _ G1). }
  assert (forall k, own (get w3 k) = own (get w k)) as O3.
  { intros k. destruct Y3. rewrite Ho. unfold w2, put_del. ws. apply (go_own _ _ _ _ _ _ _ _ G1). }
  assert (forall k, k <> ck -> k <> sk -> dat (get w3 k) = dat (get w k)) as DA3.
  { intros k N1 N2. destruct Y3. rewrite Hdat. keys; try congruence. unfold w2, put_del. ws. keys; try congruence.
    now apply (go_dat _ _ _ _ _ _ _ _ G1). }
  assert (forall k, lam (get w3 k) = lam (get w1 k)) as L3.
  { intros k. destruct Y3. rewrite Hlams. unfold w2, put_del. now ws. }
  assert (forall k, In k (unstake_cpi a) -> lam (get w3 k) = lam (get w k) \/ k = ck \/ k = sk) as L3'.
  { intros k IK. rewrite L3. destruct (N.eq_dec k ck); [auto|]. destruct (N.eq_dec k sk); [auto|].
    left. rewrite (go_touch _ _ _ _ _ _ _ _ G1); auto. simpl. intros [E|[E|[E|[]]]]; congruence. }
  (* none of the accounts handed over is the config or the stake *)
  assert (own (get w ck) = e_prog e /\ own (get w sk) = e_prog e) as [OC OS] by (split; [apply C|auto]).
  assert (e_token e <> e_prog e /\ e_rewards e <> e_prog e) as [NTP NRP].
  { destruct (prog_ids _ OK) as (_ & A & B & _). auto. }
  assert (e_vault e ck <> ck) as NVC.
  { intros E. rewrite E in VPD. destruct C; congruence. }
  assert (e_vault e ck <> sk) as NVS.
  { intros E. rewrite E in VPD. rewrite VPD in SD. discriminate. }
  assert (forall k, In k (unstake_cpi a) -> k <> ck /\ k <> sk) as NIN.
  { intros k IK. assert (own (get w k) <> e_prog e \/ k = e_vault e ck) as [NO| ->]; [|split; congruence|auto].
    unfold unstake_cpi in IK. simpl in IK.
    destruct LV as [X1 _], LP as [X2 _], LD as [X3 _].
    destruct IK as [<-|[<-|[<-|[<-|[<-|[<-|[<-|[<-|[]]]]]]]]]; auto; left; congruence. }
  assert (forall k, In k (unstake_cpi a) -> lam (get w3 k) = lam (get w k)) as L3''.
  { intros k IK. destruct (NIN _ IK). destruct (L3' _ IK) as [|[|]]; congruence. }
  assert (forall k m o t, In k (unstake_cpi a) -> liquid e w k m o t -> liquid e w3 k m o t) as LQ.
  { intros k m0 o0 t0 IK LQ. destruct (NIN _ IK). eapply liquid_same; eauto. }
  destruct (cpi_in a) as (I1 & I2 & I3 & I4 & I5 & I6 & I7).
  assert (un_vault a <> un_ptok a) as NVP.
  { intros E. destruct LV as (_ & X1 & _ & X2 & _), LP as (_ & X3 & _ & X4 & _). rewrite E, X3 in X1. injection X1 as <-.
    rewrite X2, PDA, PE in X4. eapply (ok_pool_pda e OK). right. right. left. eexists. symmetry. exact X4. }
  destruct (withdraw_runs e (with_pda cx (e_vault e ck)) w3 (un_pool a) (un_ptok a) (un_vhr a) (un_vault a) (un_mint a)
    (un_vault_pda a) (un_tokprog a) n (c_pool_acc cx mod U128) h vt pt m) as (w4 & R4 & LV4 & DA4 & O4 & r & RL & L4); auto.
  { now rewrite O3. } { now rewrite VHR, PDA. } { now rewrite O3. }
  { rewrite DA3 by now apply NIN. now rewrite VHR. }
  { unfold with_pda. rewrite PDA, N.eqb_refl. apply orb_true_r. }
  { now rewrite O3. } { rewrite DA3 by now apply NIN. auto. } { rewrite <- DE. auto. }
  { rewrite <- DE, <- HA. auto. } { rewrite <- DE, <- HA. auto. } { now rewrite T3. }
  set (w5 := setd (setd w4 (un_vault a) (DToken (set_t_amount (set_t_amount vt (t_amount vt + n)) (t_amount vt + n - n)))) (un_dest a)
     (DToken (set_t_amount dt (t_amount dt + n)))).
  assert (un_vhr a <> un_dest a) as NHD. { intros E. destruct LD as (_ & X & _). rewrite <- E, VHR, HH in X. discriminate. }
  assert (un_vhr a <> un_mint a) as NHM. { intros E. rewrite <- E, VHR, HH in MD. discriminate. }
  assert (token_transfer e (with_pda cx (e_vault e ck)) w4 (un_vault a) (un_mint a) (un_dest a) (un_vault_pda a) n = Ok w5) as R5.
  { assert (liquid e w4 (un_dest a) (un_mint a) o dt) as LD4.
    { eapply liquid_same; [apply (LQ _ _ _ _ I7 LD)|apply O4|apply DA4; auto]. }
    assert (un_vault a <> un_mint a /\ un_ptok a <> un_mint a) as [NM1 NM2].
    { destruct LV as (_ & X1 & _), LP as (_ & X2 & _). split; intros E; [rewrite <- E, X1 in MD|rewrite <- E, X2 in MD]; discriminate. }
    apply (transfer_runs e (with_pda cx (e_vault e ck)) w4 (un_vault a) (un_mint a) (un_dest a) (un_vault_pda a) n _ dt m o LV4 LD4); auto.
    - now rewrite O4, O3.
    - rewrite DA4, DA3; auto; now apply NIN.
    - unfold with_pda. rewrite PDA, N.eqb_refl. apply orb_true_r.
    - cbn. lia. }
  exists w5. unfold run.
  assert (unstake_tokens e cx a n w = Ok w5) as HND.
  { unfold unstake_tokens, load_config. rewrite <- CK, <- SKE. rewrite require_true by (apply N.eqb_eq; apply C).
    rewrite (proj2 C). cbn [unpack_config]. rewrite bind_Ok. rewrite require_true by now apply N.eqb_eq.
    rewrite require_true by (apply negb_true_iff, N.eqb_neq; auto).
    destruct LV as (X1 & X2 & X3 & _). rewrite X2. cbn [unpack_token]. rewrite bind_Ok. cbv zeta.
    rewrite require_true by now apply N.eqb_eq. rewrite require_true by now apply N.eqb_eq.
    rewrite LA, bind_Ok. rewrite require_true by apply N.eqb_refl. rewrite require_true by auto.
    rewrite SD, bind_Ok. rewrite require_true by now apply N.eqb_eq. rewrite require_true by now apply N.eqb_eq.
    rewrite MD. cbn [unpack_mint]. rewrite bind_Ok. rewrite R1, bind_Ok, SD1, bind_Ok, C1. cbn [unpack_config]. rewrite bind_Ok.
    rewrite require_true by now apply N.leb_le. rewrite require_true by now apply N.leb_le.
    unfold d1, c1. cbn [staked set_lasts cfg_bps set_cfg_last set_cfg_acc cfg_cooldown]. rewrite maxdeact_eq by (try apply WFD; auto).
    rewrite bind_Ok. rewrite require_true by now apply N.leb_le. rewrite csub_le by auto. rewrite bind_Ok.
    fold d1. fold dn. fold w2. rewrite R3, bind_Ok.
    rewrite cpi_runs.
    2:{ intros IK. apply cpi_incl1 in IK. now destruct (NIN _ IK). }
    2:{ intros IK. apply cpi_incl1 in IK. now destruct (NIN _ IK). }
    2:{ apply lam_sum_same. intros k IK. apply L3'', cpi_incl1, IK. }
    rewrite R4, bind_Ok. rewrite cpi_runs.
    2:{ intros IK. apply cpi_incl2 in IK. now destruct (NIN _ IK). }
    2:{ intros IK. apply cpi_incl2 in IK. now destruct (NIN _ IK). }
    2:{ rewrite (lam_sum_pay w3 w4 (un_pool a) (un_vault_pda a) r); auto; try (apply in_or_app; left; clear; simpl; tauto).
        apply lam_sum_same. intros k IK. apply L3'', cpi_incl2, IK. }
    exact R5. }
  unfold handler. rewrite HND, bind_Ok.
  rewrite (runtime_check_touches cx (ck :: sk :: un_authority a :: un_dest a ::
    [un_pool a; un_ptok a; un_vhr a; un_vault a; un_vault_pda a]) w w5); [reflexivity| | |auto].
  - intros k NI. simpl in NI. assert (get w1 k = get w k) as E1.
    { apply (go_touch _ _ _ _ _ _ _ _ G1). intros IK. apply NI. clear - IK. simpl in IK. tauto. }
    apply account_ext.
    + unfold w5. ws. rewrite L4, pay_lam_other; [|intros E; apply NI; clear - E; subst k; tauto..]. rewrite L3, E1. auto.
    + unfold w5. ws. now rewrite O4, O3.
    + unfold w5. ws. destruct (N.eqb_spec (un_dest a) k) as [E|_]; [exfalso; apply NI; clear - E; subst k; tauto|].
      destruct (N.eqb_spec (un_vault a) k) as [E|_]; [exfalso; apply NI; clear - E; subst k; tauto|].
      rewrite DA4, DA3; auto; intros E; apply NI; clear - E; subst k; tauto.
  - unfold w5. rewrite !total_setd. rewrite (total_pay w3 w4 _ _ _ RL L4). exact T3.
Qed.
