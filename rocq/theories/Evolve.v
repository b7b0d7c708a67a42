(** Identity of the program's accounts across steps, and how sums over stake
    accounts change. *)
From Verif Require Import Base Types Layout Instr Math External Processor Runtime History Spec
  WorldLemmas Effects Handlers.

(** ** Program accounts keep their kind and identity *)
Definition same_id (d d' : adata) : Prop :=
  match d, d' with
  | DConfig c, DConfig c' =>
      cfg_vault c' = cfg_vault c /\ cfg_bump c' = cfg_bump c /\ cfg_duna c' = cfg_duna c /\
      (cfg_bps c <= MAX_BPS -> cfg_bps c' <= MAX_BPS)
  | DVal v, DVal v' => vote (v_del v') = vote (v_del v)
  | DSol s, DSol s' => s_native s' = s_native s /\ authority (s_del s') = authority (s_del s)
  | _, _ => d' = d
  end.
Lemma same_id_refl d : same_id d d.
Proof. destruct d; simpl; auto. Qed.
Lemma same_id_trans a b c : same_id a b -> same_id b c -> same_id a c.
Proof.
  destruct a; simpl; intros H1 H2; try (subst b; exact H2);
    destruct b; try discriminate; destruct c; simpl in *; try discriminate; try tauto.
  - destruct H1 as (? & ? & ? & ?), H2 as (? & ? & ? & ?). repeat split; try congruence. auto.
  - congruence.
  - destruct H1 as [? ?], H2 as [? ?]. split; congruence.
Qed.
Lemma same_id_upd d x y : del_of d = Ok x -> vote y = vote x -> authority y = authority x ->
  same_id d (upd_del d y).
Proof. destruct d; simpl; intros [= <-] V A; auto. Qed.

(** Nothing is created; program accounts keep their identity; derived addresses
    that hold nothing stay so. *)
Record evolves (e : env) (w w' : world) : Prop := {
  ev_own : forall k, own (get w' k) = own (get w k);
  ev_id : forall k, own (get w k) = e_prog e -> same_id (dat (get w k)) (dat (get w' k));
  ev_raw : forall k b, dat (get w k) = DRaw b -> dat (get w' k) = DRaw b;
}.
Lemma evolves_refl e w : evolves e w w.
Proof. split; auto. intros. apply same_id_refl. Qed.
Lemma evolves_trans e w1 w2 w3 : evolves e w1 w2 -> evolves e w2 w3 -> evolves e w1 w3.
Proof.
  intros [A1 A2 A3] [B1 B2 B3]. split.
  - intros k. rewrite B1. auto.
  - intros k O. eapply same_id_trans; [apply A2|apply B2]; auto. rewrite A1. auto.
  - eauto.
Qed.

Lemma evolves_harvest e w ck vhr auth va sk keeper w' :
  harvested e w ck vhr auth va sk keeper w' -> evolves e w w'.
Proof.
  intros H. pose proof (harvested_sk _ _ _ _ _ _ _ _ _ H) as NS. destruct H. split; auto.
  - intros k O. rewrite Hdat. destruct (N.eqb_spec ck k).
    + subst. rewrite Hc. simpl. auto.
    + destruct (N.eqb_spec sk k); [subst|apply same_id_refl].
      eapply same_id_upd; eauto.
  - intros k b R. rewrite Hdat. destruct (N.eqb_spec ck k); [congruence|].
    destruct (N.eqb_spec sk k); [|auto]. subst sk. rewrite R in Hd. discriminate.
Qed.
Lemma evolves_resync e w ck sk lim w' : resynced w ck sk lim w' -> evolves e w w'.
Proof.
  intros []. split; auto.
  - intros k O. rewrite Hdat. destruct (N.eqb_spec ck k).
    + subst. rewrite Hc. simpl. auto.
    + destruct (N.eqb_spec sk k); [subst|apply same_id_refl].
      eapply same_id_upd; eauto.
  - intros k b R. rewrite Hdat. destruct (N.eqb_spec ck k); [congruence|].
    destruct (N.eqb_spec sk k); [|auto]. subst sk. rewrite R in Hd. discriminate.
Qed.
Lemma evolves_put_del e w k x y : del_of (dat (get w k)) = Ok x -> vote y = vote x ->
  authority y = authority x -> evolves e w (put_del w k y).
Proof.
  intros D V A. split.
  - intros k'. now ws.
  - intros k' _. ws. destruct (N.eqb_spec k k'); [subst|apply same_id_refl]. eapply same_id_upd; eauto.
  - intros k' b R. ws. destruct (N.eqb_spec k k'); [subst|auto]. rewrite R in *. discriminate.
Qed.
Lemma evolves_setd e w k d : same_id (dat (get w k)) d -> (forall b, dat (get w k) = DRaw b -> d = DRaw b) ->
  evolves e w (setd w k d).
Proof.
  intros S R. split.
  - intros k'. now ws.
  - intros k' _. ws. destruct (N.eqb_spec k k'); [subst; auto|apply same_id_refl].
  - intros k' b. ws. destruct (N.eqb_spec k k'); subst; auto.
Qed.
Lemma prog_ids e : env_ok e -> e_prog e <> 0 /\ e_prog e <> e_token e /\ e_prog e <> e_rewards e /\
  e_token e <> e_rewards e /\ e_prog e <> e_votep e /\ e_token e <> e_votep e /\ e_token e <> 0 /\
  e_rewards e <> 0.
Proof.
  intros H. pose proof (ok_ids e H) as ND.
  rewrite !NoDup_cons, !not_elem_of_cons in ND. destruct ND as (A & B & C & D & _).
  repeat split; intros E; rewrite E in *; tauto.
Qed.
Lemma evolves_synced e w ck w' : synced_cfg w ck w' -> evolves e w w'.
Proof.
  intros []. subst w'. apply evolves_setd; rewrite Hc; simpl; auto. discriminate.
Qed.

(** Called programs *)
Lemma evolves_transferred e sig w src mnt dst auth amount w' : env_ok e ->
  transferred e sig w src mnt dst auth amount w' -> evolves e w w'.
Proof.
  intros OK []. pose proof (prog_ids e OK) as (? & ? & _).
  split; auto.
  - intros k O. rewrite Hdat. destruct (src =? dst); [apply same_id_refl|].
    destruct (N.eqb_spec src k); [congruence|]. destruct (N.eqb_spec dst k); [congruence|apply same_id_refl].
  - intros k b R. rewrite Hdat. destruct (src =? dst); auto.
    destruct (N.eqb_spec src k); [congruence|]. destruct (N.eqb_spec dst k); [congruence|auto].
Qed.
Lemma evolves_burned e sig w src mnt auth amount w' : env_ok e ->
  burned e sig w src mnt auth amount w' -> evolves e w w'.
Proof.
  intros OK []. pose proof (prog_ids e OK) as (? & ? & _).
  split; auto.
  - intros k O. rewrite Hdat.
    destruct (N.eqb_spec src k); [congruence|]. destruct (N.eqb_spec mnt k); [congruence|apply same_id_refl].
  - intros k b R. rewrite Hdat.
    destruct (N.eqb_spec src k); [congruence|]. destruct (N.eqb_spec mnt k); [congruence|auto].
Qed.
Lemma evolves_rharvested e sig w pool ptok vhr mnt owner acc w' : env_ok e ->
  rharvested e sig w pool ptok vhr mnt owner acc w' -> evolves e w w'.
Proof.
  intros OK []. pose proof (prog_ids e OK) as (? & ? & ? & _).
  split; auto.
  - intros k O. rewrite Hdat. destruct (N.eqb_spec vhr k); [congruence|apply same_id_refl].
  - intros k b R. rewrite Hdat. destruct (N.eqb_spec vhr k); [congruence|auto].
Qed.
Lemma evolves_same e w w' : (forall k, own (get w' k) = own (get w k)) ->
  (forall k, dat (get w' k) = dat (get w k)) -> evolves e w w'.
Proof. intros A B. split; auto; intros k; rewrite B; auto. intros _. apply same_id_refl. Qed.
Lemma evolves_deposited e sig w pool ptok vhr tacc mnt owner amount acc w' : env_ok e ->
  deposited_ok e sig w pool ptok vhr tacc mnt owner amount acc w' -> evolves e w w'.
Proof.
  intros OK []. pose proof (prog_ids e OK) as (? & ? & ? & _).
  apply evolves_trans with w1; [subst w1|apply evolves_trans with w2].
  - split; intros k; ws; auto.
    + intros O. destruct (N.eqb_spec vhr k); [congruence|apply same_id_refl].
    + intros b R. destruct (N.eqb_spec vhr k); [congruence|auto].
  - eapply evolves_transferred; eauto.
  - apply evolves_same; auto.
Qed.
Lemma evolves_withdrawn e sig w pool ptok vhr tacc mnt owner amount acc w' : env_ok e ->
  withdrawn_ok e sig w pool ptok vhr tacc mnt owner amount acc w' -> evolves e w w'.
Proof.
  intros OK []. pose proof (prog_ids e OK) as (? & ? & ? & _).
  apply evolves_trans with w1; [subst w1|apply evolves_trans with w2].
  - split; intros k; ws; auto.
    + intros O. destruct (N.eqb_spec vhr k); [congruence|apply same_id_refl].
    + intros b R. destruct (N.eqb_spec vhr k); [congruence|auto].
  - eapply evolves_transferred; eauto.
  - apply evolves_same; auto.
Qed.

(** Program data is untouched by called programs. *)
Definition pframe (e : env) (w w' : world) : Prop :=
  (forall k, own (get w' k) = own (get w k)) /\
  (forall k, own (get w k) = e_prog e -> dat (get w' k) = dat (get w k)).
Lemma pframe_refl e w : pframe e w w.
Proof. split; auto. Qed.
Lemma pframe_trans e w1 w2 w3 : pframe e w1 w2 -> pframe e w2 w3 -> pframe e w1 w3.
Proof.
  intros [A1 A2] [B1 B2]. split.
  - intros k. rewrite B1. auto.
  - intros k O. rewrite B2; [auto|]. now rewrite A1.
Qed.
Lemma ext_pframe e w w' pool owner vhr : env_ok e -> ext_frame e w w' pool owner vhr -> pframe e w w'.
Proof.
  intros OK [A B C]. pose proof (prog_ids e OK) as (? & ? & ? & _). split; auto.
  intros k O. destruct (decide (dat (get w' k) = dat (get w k))) as [E|NE]; auto.
  apply B in NE as [NE|[NE _]]; congruence.
Qed.
Lemma pframe_transferred e sig w src mnt dst auth amount w' : env_ok e ->
  transferred e sig w src mnt dst auth amount w' -> pframe e w w'.
Proof. intros OK H. eapply (ext_pframe e w w' 0 0 0); auto. eapply transferred_frame; eauto. Qed.
Lemma pframe_burned e sig w src mnt auth amount w' : env_ok e ->
  burned e sig w src mnt auth amount w' -> pframe e w w'.
Proof. intros OK H. eapply (ext_pframe e w w' 0 0 0); auto. eapply burned_frame; eauto. Qed.
Lemma pframe_rharvested e sig w pool ptok vhr mnt owner acc w' : env_ok e ->
  rharvested e sig w pool ptok vhr mnt owner acc w' -> pframe e w w'.
Proof. intros OK H. eapply ext_pframe; auto. eapply rharvested_frame; eauto. Qed.
Lemma pframe_deposited e sig w pool ptok vhr tacc mnt owner amount acc w' : env_ok e ->
  deposited_ok e sig w pool ptok vhr tacc mnt owner amount acc w' -> pframe e w w'.
Proof. intros OK H. eapply ext_pframe; auto. eapply deposited_frame; eauto. Qed.
Lemma pframe_withdrawn e sig w pool ptok vhr tacc mnt owner amount acc w' : env_ok e ->
  withdrawn_ok e sig w pool ptok vhr tacc mnt owner amount acc w' -> pframe e w w'.
Proof. intros OK H. eapply ext_pframe; auto. eapply withdrawn_frame; eauto. Qed.

(** ** Stake accounts across steps *)
Lemma stake_of_eq e w w' ck k : own (get w' k) = own (get w k) ->
  (own (get w k) = e_prog e -> dat (get w' k) = dat (get w k)) ->
  stake_of e w' ck k = stake_of e w ck k.
Proof.
  intros O D. unfold stake_of, stake_in. rewrite O.
  destruct (N.eqb_spec (own (get w k)) (e_prog e)) as [E|E]; auto. now rewrite D.
Qed.
Lemma stake_of_some e w ck k d : stake_of e w ck k = Some d ->
  own (get w k) = e_prog e /\ del_of (dat (get w k)) = Ok d /\ belongs e ck k (dat (get w k)).
Proof.
  unfold stake_of, stake_in. destruct (N.eqb_spec (own (get w k)) (e_prog e)) as [E|E]; [|discriminate].
  destruct (dat (get w k)); try discriminate.
  - destruct (N.eqb_spec k (e_val e (vote (v_del v)) ck)); [|discriminate]. intros [= <-]. auto.
  - destruct (N.eqb_spec k (e_sol e (s_native s) ck)); [|discriminate]. intros [= <-]. auto.
Qed.
Lemma stake_of_intro e w ck k d : own (get w k) = e_prog e -> del_of (dat (get w k)) = Ok d ->
  belongs e ck k (dat (get w k)) -> stake_of e w ck k = Some d.
Proof.
  intros O D B. unfold stake_of, stake_in. rewrite O, N.eqb_refl.
  destruct (dat (get w k)); try contradiction; simpl in *; subst k; rewrite N.eqb_refl;
    now injection D as <-.
Qed.
Lemma belongs_unique e ck ck' k d : env_ok e -> belongs e ck k d -> belongs e ck' k d -> ck = ck'.
Proof.
  intros OK. destruct d; simpl; try contradiction.
  - intros -> H. now apply (ok_val_inj e OK) in H.
  - intros -> H. now apply (ok_sol_inj e OK) in H.
Qed.
Lemma belongs_pda e ck k d : belongs e ck k d -> pda e k.
Proof. unfold pda. destruct d; simpl; try contradiction; intros ->; eauto. Qed.
Lemma stake_of_other e w ck ck' k d : env_ok e -> stake_of e w ck k = Some d -> ck' <> ck ->
  stake_of e w ck' k = None.
Proof.
  intros OK H NE. destruct (stake_of e w ck' k) eqn:S; auto.
  apply stake_of_some in H as (_ & _ & B). apply stake_of_some in S as (_ & _ & B').
  exfalso. apply NE. eapply belongs_unique; eauto.
Qed.

(** The delegation at [sk] becomes [d']; every other stake account stays. *)
Definition delta (e : env) (w w' : world) (sk : pubkey) (d' : delegation) : Prop :=
  forall ck k, stake_of e w' ck k =
    if sk =? k then match stake_of e w ck k with Some _ => Some d' | None => None end
    else stake_of e w ck k.

Lemma stake_in_upd e ck k l o D x d : del_of D = Ok x -> vote d = vote x ->
  stake_in e ck k (Acct l o (upd_del D d)) =
  match stake_in e ck k (Acct l o D) with Some _ => Some d | None => None end.
Proof.
  intros H V. unfold stake_in. simpl. destruct (o =? e_prog e); auto.
  destruct D; simpl in *; try discriminate; injection H as <-.
  - rewrite V. now destruct (_ =? _).
  - now destruct (_ =? _).
Qed.
Lemma delta_intro e w w' sk x d' :
  del_of (dat (get w sk)) = Ok x -> vote d' = vote x ->
  (forall k, own (get w' k) = own (get w k)) ->
  dat (get w' sk) = upd_del (dat (get w sk)) d' ->
  (forall k ck, k <> sk -> stake_of e w' ck k = stake_of e w ck k) -> delta e w w' sk d'.
Proof.
  intros Hx V O D R ck k. destruct (N.eqb_spec sk k) as [<-|NE]; [|apply R; auto].
  unfold stake_of. rewrite (account_eta (get w' sk)), (account_eta (get w sk)).
  rewrite D, O. rewrite (stake_in_upd e ck sk _ _ _ x d' Hx V).
  f_equal.
Qed.
Lemma stake_of_config e w ck k c : dat (get w k) = DConfig c -> stake_of e w ck k = None.
Proof. intros H. unfold stake_of, stake_in. rewrite H. now destruct (_ =? _). Qed.

Lemma delta_put_del e w sk x d' : del_of (dat (get w sk)) = Ok x -> vote d' = vote x ->
  delta e w (put_del w sk d') sk d'.
Proof.
  intros Hx V. eapply delta_intro; eauto.
  - intros k. now ws.
  - ws. now rewrite N.eqb_refl.
  - intros k ck NE. apply stake_of_eq; ws; auto. intros _. destruct (N.eqb_spec sk k); congruence.
Qed.

Lemma delta_harvest e w ck vhr auth va sk keeper w' :
  harvested e w ck vhr auth va sk keeper w' ->
  exists c d h acc, dat (get w ck) = DConfig c /\ del_of (dat (get w sk)) = Ok d /\
    del_of (dat (get w' sk)) = Ok (set_lasts d h acc) /\
    delta e w w' sk (set_lasts d h acc).
Proof.
  intros H. pose proof (harvested_sk _ _ _ _ _ _ _ _ _ H) as NS. destruct H.
  assert (dat (get w' sk) = upd_del (dat (get w sk)) (set_lasts d (h_last h) (wadd128 (cfg_acc c) rpt))) as D.
  { rewrite Hdat. rewrite (proj2 (N.eqb_neq _ _) NS), N.eqb_refl. auto. }
  exists c, d, (h_last h), (wadd128 (cfg_acc c) rpt). repeat split; auto.
  - rewrite D. eapply del_of_upd'; eauto.
  - eapply delta_intro; eauto.
    intros k ck' NE. destruct (N.eqb_spec ck k) as [<-|NC].
    + rewrite (stake_of_config e w ck' ck c Hc). eapply stake_of_config. rewrite Hdat, N.eqb_refl. auto.
    + apply stake_of_eq; auto. intros _. rewrite Hdat.
      destruct (N.eqb_spec ck k); [congruence|]. destruct (N.eqb_spec sk k); [congruence|auto].
Qed.
Lemma delta_resync e w ck sk lim w' : resynced w ck sk lim w' ->
  exists c d limit, dat (get w ck) = DConfig c /\ del_of (dat (get w sk)) = Ok d /\
    calculate_maximum_stake lim = Ok limit /\ effective d <= cfg_effective c /\
    dat (get w' ck) = DConfig (set_cfg_effective c (cfg_effective c - effective d + N.min (staked d) limit)) /\
    del_of (dat (get w' sk)) = Ok (set_effective d (N.min (staked d) limit)) /\
    delta e w w' sk (set_effective d (N.min (staked d) limit)).
Proof.
  intros []. 
  assert (ck <> sk) as NS. { intros ->. rewrite Hc in Hd. discriminate. }
  assert (dat (get w' sk) = upd_del (dat (get w sk)) (set_effective d (N.min (staked d) limit))) as D.
  { rewrite Hdat. rewrite (proj2 (N.eqb_neq _ _) NS), N.eqb_refl. auto. }
  exists c, d, limit. repeat split; auto.
  - now rewrite Hdat, N.eqb_refl.
  - rewrite D. eapply del_of_upd'; eauto.
  - eapply delta_intro; eauto.
    intros k ck' NE. destruct (N.eqb_spec ck k) as [<-|NC].
    + rewrite (stake_of_config e w ck' ck c Hc). eapply stake_of_config. rewrite Hdat, N.eqb_refl. auto.
    + apply stake_of_eq; auto. intros _. rewrite Hdat.
      destruct (N.eqb_spec ck k); [congruence|]. destruct (N.eqb_spec sk k); [congruence|auto].
Qed.

(** Sums *)
Lemma sum_of_zero_default e ck g k :
  match stake_in e ck k no_account with Some d => g d | None => 0 end = 0.
Proof. unfold stake_in. now destruct (own no_account =? e_prog e). Qed.
Lemma sum_of_eq e w w' ck g : (forall k, stake_of e w' ck k = stake_of e w ck k) ->
  sum_of e w' ck g = sum_of e w ck g.
Proof.
  intros H. unfold sum_of. apply wsum_eq; auto using sum_of_zero_default.
  intros k. unfold stake_of in H. now rewrite H.
Qed.
Lemma sum_of_delta e w w' ck g sk d d' : delta e w w' sk d' -> stake_of e w ck sk = Some d ->
  sum_of e w' ck g + g d = sum_of e w ck g + g d'.
Proof.
  intros H S. unfold sum_of.
  pose proof (wsum_upd
    (fun k a => match stake_in e ck k a with Some d => g d | None => 0 end)
    (fun k a => match stake_in e ck k a with Some d => g d | None => 0 end)
    (sum_of_zero_default e ck g) (sum_of_zero_default e ck g) w w' sk) as U.
  pose proof (H ck sk) as HS. rewrite N.eqb_refl, S in HS.
  unfold stake_of in *. rewrite S, HS in U. apply U.
  intros k NE. pose proof (H ck k) as HK. destruct (N.eqb_spec sk k); [congruence|]. unfold stake_of in HK. now rewrite HK.
Qed.
Lemma sum_of_delta_none e w w' ck g sk d' : delta e w w' sk d' -> stake_of e w ck sk = None ->
  sum_of e w' ck g = sum_of e w ck g.
Proof.
  intros H S. apply sum_of_eq. intros k. rewrite H. destruct (N.eqb_spec sk k) as [<-|]; auto. now rewrite S.
Qed.
Lemma delta_stake e w w' ck sk d d' : delta e w w' sk d' -> stake_of e w ck sk = Some d ->
  stake_of e w' ck sk = Some d'.
Proof. intros H S. now rewrite H, N.eqb_refl, S. Qed.
Lemma delta_other e w w' ck sk d' k : delta e w w' sk d' -> k <> sk ->
  stake_of e w' ck k = stake_of e w ck k.
Proof. intros H NE. rewrite H. destruct (N.eqb_spec sk k); congruence. Qed.
Lemma pframe_stake_of e w w' ck k : pframe e w w' -> stake_of e w' ck k = stake_of e w ck k.
Proof. intros [A B]. apply stake_of_eq; auto. Qed.
Lemma sum_of_ge e w ck g k d : stake_of e w ck k = Some d -> g d <= sum_of e w ck g.
Proof.
  intros S. unfold sum_of.
  pose proof (wsum_ge1
    (fun k a => match stake_in e ck k a with Some d => g d | None => 0 end)
    (sum_of_zero_default e ck g) w k) as H.
  cbv beta in H. unfold stake_of in S. rewrite S in H. exact H.
Qed.
Lemma sum_of_ge2 e w ck g k d k' d' : k <> k' -> stake_of e w ck k = Some d -> stake_of e w ck k' = Some d' ->
  g d + g d' <= sum_of e w ck g.
Proof.
  intros NE S S'. unfold sum_of.
  pose proof (wsum_ge2
    (fun k a => match stake_in e ck k a with Some d => g d | None => 0 end)
    (sum_of_zero_default e ck g) w k k' NE) as H.
  cbv beta in H. unfold stake_of in S, S'. rewrite S, S' in H. exact H.
Qed.
