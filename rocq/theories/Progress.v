(** When handlers succeed. *)
From Verif Require Import Base Types Layout Math External Processor Runtime History Spec SpecReward
  WorldLemmas Effects Handlers Evolve Sane Wf Totals Arith Nets Caps Stakers Deposits Inv Life Rewards Collect.

Lemma bind_Ok {A B} (a : A) (f : A -> result B) : bind (Ok a) f = f a.
Proof. reflexivity. Qed.
Lemma require_true {B} b er (f : unit -> result B) : b = true -> bind (require b er) f = f tt.
Proof. intros ->. reflexivity. Qed.
Lemma assert_true {B} b (f : unit -> result B) : b = true -> bind (assert b) f = f tt.
Proof. intros ->. reflexivity. Qed.
Lemma csub_le a b : b <= a -> csub a b = Ok (a - b).
Proof. intros L. unfold csub. destruct (N.leb_spec b a); [reflexivity|lia]. Qed.
Lemma add64_lt a b : a + b < U64 -> add64 a b = Ok (a + b).
Proof. intros L. unfold add64. destruct (N.ltb_spec (a + b) U64); [reflexivity|lia]. Qed.
Lemma unpack_config_at w k c : dat (get w k) = DConfig c -> unpack_config (dat (get w k)) = Ok c.
Proof. intros ->. reflexivity. Qed.
Lemma unpack_holder_at w k c : dat (get w k) = DHolder c -> unpack_holder (dat (get w k)) = Ok c.
Proof. intros ->. reflexivity. Qed.

Lemma harvest_runs e w ck vhr auth va sk c d h rpt sr hr :
  reading e w ck va sk c d h rpt sr hr -> auth = authority d -> vhr = e_holder e va -> lam (get w ck) < U64 ->
  lam (get w auth) + (sr + hr) < U64 -> exists w', harvest e w ck vhr auth va sk None = Ok w'.
Proof.
  intros [] AU VH L LA. unfold harvest. rewrite rd_d, bind_Ok, require_true by now apply N.eqb_eq.
  unfold sync_config_lamports. rewrite rd_c. simpl unpack_config. rewrite bind_Ok.
  rewrite csub_le by auto. rewrite bind_Ok, rd_r, bind_Ok, bind_Ok.
  assert (sk <> ck) as NS. { intros ->. rewrite rd_c in rd_d. discriminate. }
  assert (e_holder e va <> ck) as NH by (intros E; rewrite E in rd_h; congruence).
  assert (e_holder e va <> sk) as NH2 by (intros E; rewrite E in rd_h; rewrite rd_h in rd_d; discriminate).
  ws. rewrite N.eqb_refl. simpl unpack_config. rewrite bind_Ok. cbn [cfg_acc set_cfg_last set_cfg_acc cfg_sync].
  rewrite rd_sr, bind_Ok, require_true by now apply N.eqb_eq. subst vhr.
  ws. rewrite (N.eqb_sym ck), (proj2 (N.eqb_neq _ _) NH). rewrite rd_h. simpl unpack_holder. rewrite bind_Ok, rd_hr, bind_Ok.
  rewrite add64_lt by lia. rewrite bind_Ok. cbv zeta. ws. rewrite csub_le by auto. rewrite bind_Ok.
  rewrite assert_true by now apply N.leb_le. rewrite bind_Ok. rewrite csub_le by lia. rewrite bind_Ok.
  ws. rewrite N.sub_0_r. rewrite add64_lt by lia. rewrite bind_Ok. eauto.
Qed.

Lemma runtime_check_same cx w w' : (forall k, get w' k = get w k) -> runtime_check cx w w' = Ok tt.
Proof.
  intros S. unfold runtime_check. rewrite require_true.
  - replace (forallb _ _) with true; [reflexivity|]. symmetry. apply forallb_forall. intros k _.
    rewrite S. rewrite bool_decide_true by auto. reflexivity.
  - apply N.eqb_eq. symmetry. apply total_same. intros k. now rewrite S.
Qed.

(** Harvesting an account that is settled changes nothing. *)
Lemma harvest_settled e w ck vhr auth sk c d h : settled e ck sk w ->
  config_at e w ck c -> cfg_last c = lam (get w ck) -> wf_world w -> e_rent e CONFIG_LEN <= lam (get w ck) ->
  del_of (dat (get w sk)) = Ok d -> auth = authority d -> vhr = e_holder e (e_vault e ck) ->
  dat (get w vhr) = DHolder h ->
  exists w', harvest e w ck vhr auth (e_vault e ck) sk None = Ok w' /\ forall k, get w' k = get w k.
Proof.
  intros (c0 & d0 & D0 & S & X & Y) [O D] L WF R Dd AU VH Hh. rewrite D in D0. injection D0 as <-.
  apply stake_of_some in S as (SO & S & B). rewrite Dd in S. injection S as <-.
  assert (cfg_acc c < U128) as A by (pose proof (wf_dat _ ck WF) as W; rewrite D in W; simpl in W; tauto).
  rewrite (acc_at_eq _ _ _ D), acc_now_seen in X by (auto; lia).
  assert (last_holder d = h_last h) as Y' by (rewrite Y; unfold holder_acc; rewrite <- VH, Hh; auto).
  assert (h_last h < U128) as HB by (pose proof (wf_dat _ vhr WF) as W; rewrite Hh in W; simpl in W; tauto).
  assert (exists rpt, calculate_stake_rewards_per_token (lam (get w ck) - cfg_last c) (cfg_effective c) = Ok rpt /\
     wadd128 (cfg_acc c) rpt = cfg_acc c) as (rpt & RP & WA).
  { rewrite L, N.sub_diag. exists 0. split.
    - destruct (N.eq_dec (cfg_effective c) 0) as [->|NZ]; [reflexivity|]. rewrite rpt_eq by (auto; lia).
      rewrite N.mul_0_l. now rewrite N.div_0_l by auto.
    - unfold wadd128. rewrite N.add_0_r. now apply N.mod_small. }
  assert (reading e w ck (e_vault e ck) sk c d h rpt 0 0) as RD.
  { split; auto; try lia.
    - subst vhr. auto.
    - rewrite WA, X, eligible_eq, wsub_same by auto. rewrite N.mul_0_l. reflexivity.
    - rewrite <- Y', eligible_eq, wsub_same by lia. rewrite N.mul_0_l. reflexivity. }
  destruct (harvest_runs _ _ _ _ _ _ _ _ _ _ _ _ _ RD AU VH) as [w' H]; [apply wf_lam; auto|rewrite !N.add_0_r; apply wf_lam; auto|].
  exists w'. split; [auto|]. intros k. pose proof (harvest_ok _ _ _ _ _ _ _ _ _ H) as HV. clear H.
  destruct HV as [c1 d1 h1 rpt1 sr1 hr1 Hc1 Hd1 _ _ Hr1 Hsr1 _ Hh1 Hhr1 _ _ _ _ Ho1 Hdat1 Hl1].
  rewrite D in Hc1. injection Hc1 as <-. rewrite Dd in Hd1. injection Hd1 as <-.
  rewrite Hh in Hh1. injection Hh1 as <-. rewrite RP in Hr1. injection Hr1 as <-.
  destruct RD as [_ _ _ _ _ rsr rhr _ _]. rewrite rsr in Hsr1. injection Hsr1 as <-. rewrite rhr in Hhr1. injection Hhr1 as <-.
  apply account_ext; [|apply Ho1|].
  - rewrite Hl1. unfold paid_lam, keeper_lam, keeper_part. keys; lia.
  - rewrite Hdat1. destruct (N.eqb_spec ck k) as [<-|].
    + rewrite WA. rewrite D. f_equal. rewrite N.sub_0_r, <- L. destruct c; reflexivity.
    + destruct (N.eqb_spec sk k) as [<-|]; auto. rewrite WA. rewrite <- Y', <- X.
      replace (set_lasts d (last_holder d) (last_stake d)) with d by (destruct d; reflexivity). eapply upd_del_same; eauto.
Qed.
