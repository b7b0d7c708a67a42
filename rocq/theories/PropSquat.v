(** C88: nobody can occupy another's stake address, and the first one keeps it. *)
From Verif Require Import Base Types Layout Instr Math External Processor Runtime Declared History Spec SpecReward
  WorldLemmas Effects Handlers Evolve Sane Wf Arith Totals Tokens Nets Life Touches Inv Progress SpecExact Exact PropAuth PropState PropTokens PropLive PropExact SpecSquat Demo.

Lemma address_pda e k : stake_address e k -> pda e k.
Proof. intros [(v & c & ->)|(n & c & ->)]; [left|right; left]; eauto. Qed.

(** ** An address is free or holds its rightful account *)
Theorem C88_validator_address e w v ck : env_ok e -> reachable e w ->
  free w (e_val e v ck) \/
  exists s c, val_at e w (e_val e v ck) s /\ vote (v_del s) = v /\ config_at e w ck c.
Proof.
  intros OK R. pose proof (i_sane _ _ (inv_reachable _ _ OK R)) as S. set (k := e_val e v ck).
  assert (pda e k) as P by (left; unfold k; eauto).
  destruct (N.eq_dec (own (get w k)) (e_prog e)) as [O|O]; [right|left; exact (sane_pda _ _ S k P O)].
  destruct (sane_kind _ _ S k O) as [[b D]|[[c D]|[[s D]|[s D]]]].
  - destruct (sane_raw _ _ S k b O D) as [_ X]. destruct (X P) as (_ & c & E). now apply (ok_val_vault _ OK) in E.
  - destruct (sane_cfg _ _ S k c (conj O D)) as [N _]. contradiction.
  - destruct (sane_val _ _ S k s (conj O D)) as (ck' & c & E & C). unfold k in E. apply (ok_val_inj _ OK) in E as [E1 E2].
    exists s, c. subst ck'. split; [split; auto|]. auto.
  - destruct (sane_sol _ _ S k s (conj O D)) as (ck' & c & E & C). now apply (ok_val_sol _ OK) in E.
Qed.
Print Assumptions C88_validator_address.
Theorem C88_staker_address e w n ck : env_ok e -> reachable e w ->
  free w (e_sol e n ck) \/
  exists s c, sol_at e w (e_sol e n ck) s /\ s_native s = n /\ config_at e w ck c.
Proof.
  intros OK R. pose proof (i_sane _ _ (inv_reachable _ _ OK R)) as S. set (k := e_sol e n ck).
  assert (pda e k) as P by (right; left; unfold k; eauto).
  destruct (N.eq_dec (own (get w k)) (e_prog e)) as [O|O]; [right|left; exact (sane_pda _ _ S k P O)].
  destruct (sane_kind _ _ S k O) as [[b D]|[[c D]|[[s D]|[s D]]]].
  - destruct (sane_raw _ _ S k b O D) as [_ X]. destruct (X P) as (_ & c & E). now apply (ok_sol_vault _ OK) in E.
  - destruct (sane_cfg _ _ S k c (conj O D)) as [N _]. contradiction.
  - destruct (sane_val _ _ S k s (conj O D)) as (ck' & c & E & C). symmetry in E. now apply (ok_val_sol _ OK) in E.
  - destruct (sane_sol _ _ S k s (conj O D)) as (ck' & c & E & C). unfold k in E. apply (ok_sol_inj _ OK) in E as [E1 E2].
    exists s, c. subst ck'. split; [split; auto|]. auto.
Qed.
Print Assumptions C88_staker_address.

(** Nothing is ever created at an override address. *)
Theorem C88_override_address e w x ck : env_ok e -> reachable e w -> free w (e_override e x ck).
Proof.
  intros OK R. pose proof (i_sane _ _ (inv_reachable _ _ OK R)) as S. set (k := e_override e x ck).
  assert (pda e k) as P by (right; right; right; unfold k; eauto).
  destruct (N.eq_dec (own (get w k)) (e_prog e)) as [O|O]; [|exact (sane_pda _ _ S k P O)]. exfalso.
  destruct (sane_kind _ _ S k O) as [[b D]|[[c D]|[[s D]|[s D]]]].
  - destruct (sane_raw _ _ S k b O D) as [_ X]. destruct (X P) as (_ & c & E). symmetry in E. now apply (ok_vault_over _ OK) in E.
  - destruct (sane_cfg _ _ S k c (conj O D)) as [N _]. contradiction.
  - destruct (sane_val _ _ S k s (conj O D)) as (ck' & c & E & C). symmetry in E. now apply (ok_val_over _ OK) in E.
  - destruct (sane_sol _ _ S k s (conj O D)) as (ck' & c & E & C). symmetry in E. now apply (ok_sol_over _ OK) in E.
Qed.
Print Assumptions C88_override_address.

(** ** A free address stays free and keeps its funds until its account is created *)
Definition up_at (k : pubkey) (w w' : world) : Prop := own (get w' k) = own (get w k) /\ lam (get w k) <= lam (get w' k).
Lemma up_refl k w : up_at k w w.
Proof. split; [auto|lia]. Qed.
Lemma up_trans k w1 w2 w3 : up_at k w1 w2 -> up_at k w2 w3 -> up_at k w1 w3.
Proof. intros [A1 A2] [B1 B2]. split; [congruence|lia]. Qed.
Lemma up_same k w w' : (forall k, own (get w' k) = own (get w k)) -> (forall k, lam (get w' k) = lam (get w k)) -> up_at k w w'.
Proof. intros A B. split; [auto|rewrite B; lia]. Qed.
Lemma up_setd k k' w d : up_at k w (setd w k' d).
Proof. apply up_same; intros; now ws. Qed.
Lemma up_harvested k e w ck vhr auth va sk keeper w' : harvested e w ck vhr auth va sk keeper w' -> k <> ck -> up_at k w w'.
Proof. intros [] N. split; [auto|]. rewrite Hlams. now apply paid_lam_ge. Qed.
Lemma up_resynced k w ck sk l w' : resynced w ck sk l w' -> up_at k w w'.
Proof. intros []. now apply up_same. Qed.
Lemma up_transferred k e sig w src mnt dst auth n w' : transferred e sig w src mnt dst auth n w' -> up_at k w w'.
Proof. intros []. now apply up_same. Qed.
Lemma up_burned k e sig w src mnt auth n w' : burned e sig w src mnt auth n w' -> up_at k w w'.
Proof. intros []. now apply up_same. Qed.
Lemma up_deposited k e sig w pool ptok vhr tacc mnt owner n acc w' : deposited_ok e sig w pool ptok vhr tacc mnt owner n acc w' ->
  k <> pool -> up_at k w w'.
Proof.
  intros [] N. split; [|rewrite Hl; now apply pay_lam_ge]. rewrite Ho. destruct (up_transferred k _ _ _ _ _ _ _ _ _ Hw2) as [E _].
  rewrite E. subst w1. now ws.
Qed.
Lemma up_withdrawn k e sig w pool ptok vhr tacc mnt owner n acc w' : withdrawn_ok e sig w pool ptok vhr tacc mnt owner n acc w' ->
  k <> pool -> up_at k w w'.
Proof.
  intros [] N. split; [|rewrite Hl; now apply pay_lam_ge]. rewrite Ho. destruct (up_transferred k _ _ _ _ _ _ _ _ _ Hw2) as [E _].
  rewrite E. subst w1. now ws.
Qed.
Lemma up_revalidated k e w ck vhr vs vk vauth f w' : revalidated e w ck vhr vs vk vauth f w' -> k <> ck -> up_at k w w'.
Proof.
  intros [] N. eapply up_trans; [eapply up_harvested; eauto|]. eapply up_trans; [|eapply up_resynced; eauto]. subst w2. apply up_setd.
Qed.
Definition call_creates (c : call) (k : pubkey) : Prop :=
  match c with CInitializeValidatorStake a => iv_stake a = k | CInitializeSolStakerStake a => is_stake a = k | _ => False end.
Lemma up_did e cx w w' c k : env_ok e -> sane e w -> did e cx w w' c -> pda e k -> (forall ck, k <> e_vault e ck) ->
  ~ call_creates c k -> up_at k w w'.
Proof.
  intros OK S D P NV NC.
  assert (forall ck c0, own (get w ck) = e_prog e -> dat (get w ck) = DConfig c0 -> k <> ck) as NK.
  { intros ck c0 O E ->. now destruct (sane_cfg _ _ S ck c0 (conj O E)) as [N _]. }
  assert (forall w1 pool m, pool = e_pool e m -> own (get w1 pool) = e_rewards e -> k <> pool) as NP.
  { intros w1 pool m -> _ ->. now apply (ok_pool_pda _ OK) in P. }
  destruct D as [a s au cd b sy du H|a H|a n v H _|a H|a H|a n v H _|a t H|a f H|a H|a n s H _
                |a H|a n H|a n s H _|a n H|a n H|a H].
  - destruct H. split; [|rewrite Hl; lia]. rewrite Ho. destruct (N.eqb_spec (ic_vault_pda a) k) as [E|]; [|auto].
    exfalso. apply (NV (ic_config a)). congruence.
  - destruct H. split; [|rewrite Hl; lia]. rewrite Ho. destruct (N.eqb_spec (iv_stake a) k) as [E|]; [|auto]. now destruct NC.
  - destruct H as [c0 Hco Hc0 Hso Hbel [c d w1 w2 w3 w4 H1 Hc Hvp Hva Hpos Hd Hb H2 H3 Hu Hsum1 H4 H5]].
    eapply up_trans; [eapply up_harvested; [exact H1|eauto]|].
    apply up_trans with w2; [subst w2; apply up_setd|]. eapply up_trans; [eapply up_resynced; exact H3|].
    eapply up_trans; [eapply up_transferred; exact H4|]. eapply up_deposited; [exact H5|]. destruct H5. eauto.
  - destruct H as [c0 c w1 w2 w3 Hco Hc0 Hva H1 H2 Hmin Hex H3 Hov Hc H4].
    assert (hh_vault_pda a = e_vault e (hh_config a)) as V by (eapply vault_auth_eq; eauto; split; auto).
    apply up_trans with w1; [destruct H1; subst w1; apply up_setd|].
    apply up_trans with w2; [destruct H2; split; [auto|rewrite Hl; apply pay_lam_ge; eauto]|].
    subst w' w3. pose proof (NK _ _ Hco Hc0) as N1. pose proof (NV (hh_config a)) as N2. rewrite <- V in N2.
    split; ws; [auto|]. destruct (N.eqb_spec (hh_config a) k); [congruence|]. destruct (N.eqb_spec (hh_vault_pda a) k); [congruence|]. lia.
  - destruct H. eapply up_harvested; eauto.
  - destruct H as [c0 Hco Hc0 Hso Hbel [c1 c d w1 w2 w3 Hc1 Hva H1 Hc Hset Hau Hsig Hv Hpos Hd H2 H3 H4]].
    eapply up_trans; [eapply up_harvested; [exact H1|eauto]|].
    apply up_trans with w2; [subst w2; apply up_setd|]. eapply up_trans; [|eapply up_resynced; exact H4].
    destruct H3 as [[_ ->]|(_ & _ & H3)]; [apply up_refl|eapply up_burned; exact H3].
  - destruct H as [? ? ? ? ? ? ->]. apply up_setd.
  - destruct H as [? ? ? ? ? ? ? ->]. apply up_setd.
  - destruct H. split; [|rewrite Hl; lia]. rewrite Ho. destruct (N.eqb_spec (is_stake a) k) as [E|]; [|auto]. now destruct NC.
  - destruct H as [c0 Hco Hc0 Hso Hbel [c d w1 w2 w3 w4 H1 Hc Hvp Hva Hpos Hd Hb H2 H3 Hu Hsum1 H4 H5]].
    eapply up_trans; [eapply up_harvested; [exact H1|eauto]|].
    apply up_trans with w2; [subst w2; apply up_setd|]. eapply up_trans; [eapply up_resynced; exact H3|].
    eapply up_trans; [eapply up_transferred; exact H4|]. eapply up_deposited; [exact H5|]. destruct H5. eauto.
  - destruct H as [c0 s vw Hco Hc0 Hso Hs Hk Hau Hnat Hvw Hsame H1
                  |c0 s vw kp s1 s3 w1 w2 w3 w4 cv cs Hco Hc0 Hso Hs Hk Hau Hnat Hvw Hdiff Hkp H1 Hs1 H2 H3 Hs3 H4 H5];
      (eapply up_harvested in H1; [|eauto]); [exact H1|].
    eapply up_trans; [exact H1|]. eapply up_trans; [|eapply up_resynced; exact H5].
    apply up_trans with w2; [destruct H2 as [? ? ? H2| ? ? ->]; [eapply up_revalidated; [exact H2|eauto]|apply up_refl]|].
    apply up_trans with w3; [destruct H3 as [? ? ? ? ? H3|? ? ? -> ? ?|? -> ? ?]; [eapply up_revalidated; [exact H3|eauto]|apply up_refl|apply up_refl]|].
    subst w4. apply up_setd.
  - destruct H. eapply up_trans; [eapply up_harvested; [exact H1|eauto]|].
    apply up_trans with w2; [subst w2; apply up_setd|]. eapply up_trans; [eapply up_resynced; exact H3|].
    eapply up_trans; [|eapply up_transferred; exact H5]. eapply up_withdrawn; [exact H4|]. destruct H4. eauto.
  - destruct H as [c0 Hco Hc0 Hso Hbel [c1 c d w1 w2 w3 Hc1 Hva H1 Hc Hset Hau Hsig Hv Hpos Hd H2 H3 H4]].
    eapply up_trans; [eapply up_harvested; [exact H1|eauto]|].
    apply up_trans with w2; [subst w2; apply up_setd|]. eapply up_trans; [|eapply up_resynced; exact H4].
    destruct H3 as [[_ ->]|(_ & _ & H3)]; [apply up_refl|eapply up_burned; exact H3].
  - destruct H. eapply up_trans; [eapply up_harvested; [exact H1|eauto]|]. eapply up_trans; [eapply up_harvested; [exact H2|eauto]|].
    apply up_trans with w4; [subst w4 w3; eapply up_trans; apply up_setd|].
    eapply up_trans; [eapply up_resynced; exact H5|eapply up_resynced; exact H6].
  - destruct H. eapply up_trans; [eapply up_harvested; [exact H1|eauto]|].
    eapply up_trans; [|eapply up_resynced; exact H3]. subst w2. apply up_setd.
  - destruct H. subst w'. apply up_setd.
Qed.
Lemma address_vault e k ck : env_ok e -> stake_address e k -> k <> e_vault e ck.
Proof. intros OK [(v & c & ->)|(n & c & ->)] E; [now apply (ok_val_vault _ OK) in E|now apply (ok_sol_vault _ OK) in E]. Qed.
Theorem C88_waiting e w tr w' k : env_ok e -> reachable e w -> steps e w tr w' -> stake_address e k -> free w k ->
  (forall ev, In ev tr -> ~ creates_at ev k) -> free w' k /\ lam (get w k) <= lam (get w' k).
Proof.
  intros OK R ST A F. induction ST as [w|w tr w1 ev w2 ST IH S1]; intros NC; [split; [auto|lia]|].
  destruct IH as [F1 L1]; auto. { intros x X. apply NC, in_app_iff. now left. }
  assert (reachable e w1) as R1 by (eapply reachable_steps; eauto).
  assert (reachable e w2) as R2 by (eapply reachable_step; eauto).
  assert (~ creates_at ev k) as NE by (apply NC, in_app_iff; right; now left).
  destruct (prog_ids _ OK) as (P0 & _).
  assert (own (get w2 k) = 0 /\ lam (get w1 k) <= lam (get w2 k)) as [O L].
  { inversion S1 as [? cx0 c ? WC WA RUN|? ? RE]; subst.
    - apply run_ok in RUN as (_ & D & _). destruct F1 as [F1 _].
      destruct (up_did e cx0 w1 w2 c k OK (i_sane _ _ (inv_reachable _ _ OK R1)) D (address_pda _ _ A)) as [B1 B2].
      + intros ck. now apply address_vault.
      + destruct c; auto.
      + split; [congruence|auto].
    - destruct F1 as [F1 _]. destruct (rely_pda _ _ _ RE k (address_pda _ _ A)) as (B1 & _ & B2); [congruence|]. split; [congruence|auto]. }
  split; [|lia]. apply (sane_pda _ _ (i_sane _ _ (inv_reachable _ _ OK R2)) k (address_pda _ _ A)). congruence.
Qed.
Print Assumptions C88_waiting.

(** ** Token accounts keep their owner, mint and close authority, and get no delegate *)
Definition same_holder (t t' : token) : Prop :=
  t_owner t' = t_owner t /\ t_mint t' = t_mint t /\ t_close t' = t_close t /\ t_delegate t' = None.
Definition tk (w w' : world) : Prop := forall k t, dat (get w k) = DToken t -> t_delegate t = None ->
  own (get w k) <> 0 ->
  own (get w' k) = own (get w k) /\ exists t', dat (get w' k) = DToken t' /\ same_holder t t'.
Lemma tk_refl w : tk w w.
Proof. intros k t D N _. split; auto. exists t. repeat (split; auto). Qed.
Lemma tk_trans w1 w2 w3 : tk w1 w2 -> tk w2 w3 -> tk w1 w3.
Proof.
  intros A B k t D N Z. destruct (A k t D N Z) as (O1 & t1 & D1 & A1 & A2 & A3 & A4). rewrite <- O1 in Z.
  destruct (B k t1 D1 A4 Z) as (O2 & t2 & D2 & B1 & B2 & B3 & B4). split; [congruence|]. exists t2. split; auto.
  split; [congruence|]. split; [congruence|]. split; congruence.
Qed.
(** Data changed only where there is no token account. *)
Lemma tk_data w w' : (forall k, own (get w' k) = own (get w k) \/ own (get w k) = 0) ->
  (forall k t, dat (get w k) = DToken t -> dat (get w' k) = DToken t) -> tk w w'.
Proof.
  intros A B k t D N Z. split; [destruct (A k); [auto|contradiction]|]. exists t. repeat (split; auto).
Qed.
Lemma tk_setd w k d : (forall t, dat (get w k) <> DToken t) -> tk w (setd w k d).
Proof.
  intros N. apply tk_data; intros k'; [left; now ws|]. intros t D. unfold setd. rewrite get_put.
  destruct (N.eqb_spec k k') as [<-|]; [|auto]. now apply N in D.
Qed.
Lemma tk_harvested e w ck vhr auth va sk keeper w' : harvested e w ck vhr auth va sk keeper w' -> tk w w'.
Proof.
  intros []. apply tk_data; [auto|]. intros k t D. rewrite Hdat. destruct (N.eqb_spec ck k) as [E|]; [congruence|].
  destruct (N.eqb_spec sk k) as [E|]; [|auto]. rewrite <- E in D. rewrite D in Hd. discriminate.
Qed.
Lemma tk_resynced w ck sk l w' : resynced w ck sk l w' -> tk w w'.
Proof.
  intros []. apply tk_data; [auto|]. intros k t D. rewrite Hdat. destruct (N.eqb_spec ck k) as [E|]; [congruence|].
  destruct (N.eqb_spec sk k) as [E|]; [|auto]. rewrite <- E in D. rewrite D in Hd. discriminate.
Qed.
Lemma tk_put_del w k x y : del_of (dat (get w k)) = Ok x -> tk w (put_del w k y).
Proof. intros D. apply tk_setd. intros t E. rewrite E in D. discriminate. Qed.
Lemma tk_transferred e sig w src mnt dst auth n w' : transferred e sig w src mnt dst auth n w' -> tk w w'.
Proof.
  intros [] k t D N Z. split; [auto|]. rewrite Hdat. apply token_authorise_ok in Hau as (_ & _ & A1 & A2 & A3 & A4 & A5 & A6).
  destruct (src =? dst); [exists t; repeat (split; auto)|]. destruct (N.eqb_spec src k) as [E|].
  { rewrite <- E in D. assert (t = s) as -> by congruence. eexists; split; [reflexivity|]. rewrite (A6 N). repeat (split; auto). }
  destruct (N.eqb_spec dst k) as [E|]; [|exists t; repeat (split; auto)].
  rewrite <- E in D. assert (t = d) as -> by congruence. eexists; split; [reflexivity|]. repeat (split; auto).
Qed.
Lemma tk_burned e sig w src mnt auth n w' : burned e sig w src mnt auth n w' -> tk w w'.
Proof.
  intros [] k t D N Z. split; [auto|]. rewrite Hdat. apply token_authorise_ok in Hau as (_ & _ & A1 & A2 & A3 & A4 & A5 & A6).
  destruct (N.eqb_spec src k) as [E|].
  { rewrite <- E in D. assert (t = s) as -> by congruence. eexists; split; [reflexivity|]. rewrite (A6 N). repeat (split; auto). }
  destruct (N.eqb_spec mnt k) as [E|]; [congruence|exists t; repeat (split; auto)].
Qed.
Lemma tk_deposited e sig w pool ptok vhr tacc mnt owner n acc w' : deposited_ok e sig w pool ptok vhr tacc mnt owner n acc w' -> tk w w'.
Proof.
  intros []. subst w1. apply tk_trans with w2; [|apply tk_data; [auto|intros k t D; congruence]].
  eapply tk_trans; [|eapply tk_transferred; exact Hw2]. apply tk_setd. intros t E. congruence.
Qed.
Lemma tk_withdrawn e sig w pool ptok vhr tacc mnt owner n acc w' : withdrawn_ok e sig w pool ptok vhr tacc mnt owner n acc w' -> tk w w'.
Proof.
  intros []. subst w1. apply tk_trans with w2; [|apply tk_data; [auto|intros k t D; congruence]].
  eapply tk_trans; [|eapply tk_transferred; exact Hw2]. apply tk_setd. intros t E. congruence.
Qed.
Lemma tk_rharvested e sig w pool ptok vhr mnt owner acc w' : rharvested e sig w pool ptok vhr mnt owner acc w' -> tk w w'.
Proof.
  intros []. apply tk_data; [auto|]. intros k t D. rewrite Hdat. destruct (N.eqb_spec vhr k) as [E|]; [congruence|auto].
Qed.
Lemma tk_revalidated e w ck vhr vs vk vauth f w' : revalidated e w ck vhr vs vk vauth f w' -> tk w w'.
Proof.
  intros []. eapply tk_trans; [eapply tk_harvested; eauto|]. eapply tk_trans; [|eapply tk_resynced; eauto]. subst w2.
  apply tk_setd. intros ? E. congruence.
Qed.
Lemma tk_did e cx w w' c : env_ok e -> did e cx w w' c -> tk w w'.
Proof.
  intros OK D. destruct D as [a s au cd b sy du H|a H|a n v H _|a H|a H|a n v H _|a t H|a f H|a H|a n s H _
                |a H|a n H|a n s H _|a n H|a n H|a H].
  - destruct H. intros k t0 D N Z. rewrite Ho, Hd. destruct (N.eqb_spec (ic_vault_pda a) k) as [E|]; [congruence|]. split; [auto|].
    destruct (N.eqb_spec (ic_config a) k) as [E|]; [|exists t0; repeat (split; auto)].
    rewrite <- E in D. rewrite D in Hlen. discriminate.
  - destruct H. apply tk_data; intros k.
    + rewrite Ho. destruct (N.eqb_spec (iv_stake a) k) as [<-|]; auto.
    + intros t0 D. rewrite Hd. destruct (N.eqb_spec (iv_stake a) k) as [E|]; [congruence|auto].
  - destruct H as [c0 Hco Hc0 Hso Hbel [c d w1 w2 w3 w4 H1 Hc Hvp Hva Hpos Hd Hb H2 H3 Hu Hsum1 H4 H5]].
    eapply tk_trans; [eapply tk_harvested; exact H1|].
    eapply tk_trans; [|eapply tk_deposited; exact H5]. eapply tk_trans; [|eapply tk_transferred; exact H4].
    eapply tk_trans; [|eapply tk_resynced; exact H3]. subst w2. eapply tk_put_del; exact Hd.
  - destruct H as [c0 c w1 w2 w3 Hco Hc0 Hva H1 H2 Hmin Hex H3 Hov Hc H4].
    apply tk_trans with w1; [destruct H1 as [? ? Hx ? ? ->]; apply tk_setd; intros ? E; congruence|].
    eapply tk_trans; [eapply tk_rharvested; exact H2|].
    apply tk_trans with w3; [subst w3; apply tk_data; intros k; [left|intros t0 D]; now ws|].
    assert (dat (get w3 (hh_config a)) = DConfig c) as Hc3 by (subst w3; ws; exact Hc).
    subst w'. apply tk_setd. intros ? E. congruence.
  - destruct H. eapply tk_harvested; exact H.
  - destruct H as [c0 Hco Hc0 Hso Hbel [c1 c d w1 w2 w3 Hc1 Hva H1 Hc Hset Hau Hsig Hv Hpos Hd H2 H3 H4]].
    eapply tk_trans; [eapply tk_harvested; exact H1|]. eapply tk_trans; [|eapply tk_resynced; exact H4].
    apply tk_trans with w2; [|destruct H3 as [[_ ->]|(_ & _ & H3)]; [apply tk_refl|eapply tk_burned; exact H3]].
    subst w2. eapply tk_put_del; exact Hd.
  - destruct H as [c Hsig Hco Hc Hau Hne ->]. apply tk_setd. intros ? E. congruence.
  - destruct H as [c Hco Hc Hset Hau Hsig Hf ->]. apply tk_setd. intros ? E. congruence.
  - destruct H. apply tk_data; intros k.
    + rewrite Ho. destruct (N.eqb_spec (is_stake a) k) as [<-|]; auto.
    + intros t0 D. rewrite Hd. destruct (N.eqb_spec (is_val a) k) as [E|]; [congruence|].
      destruct (N.eqb_spec (is_stake a) k) as [E|]; [congruence|auto].
  - destruct H as [c0 Hco Hc0 Hso Hbel [c d w1 w2 w3 w4 H1 Hc Hvp Hva Hpos Hd Hb H2 H3 Hu Hsum1 H4 H5]].
    eapply tk_trans; [eapply tk_harvested; exact H1|].
    eapply tk_trans; [|eapply tk_deposited; exact H5]. eapply tk_trans; [|eapply tk_transferred; exact H4].
    eapply tk_trans; [|eapply tk_resynced; exact H3]. subst w2. eapply tk_put_del; exact Hd.
  - destruct H as [c0 s vw Hco Hc0 Hso Hs Hk Hau Hnat Hvw Hsame H1
                  |c0 s vw kp s1 s3 w1 w2 w3 w4 cv cs Hco Hc0 Hso Hs Hk Hau Hnat Hvw Hdiff Hkp H1 Hs1 H2 H3 Hs3 H4 H5].
    + eapply tk_harvested; exact H1.
    + eapply tk_trans; [eapply tk_harvested; exact H1|]. eapply tk_trans; [|eapply tk_resynced; exact H5].
      apply tk_trans with w2; [|apply tk_trans with w3].
      * destruct H2 as [? ? ? H2| ? ? ->]; [|apply tk_refl]. eapply tk_revalidated; exact H2.
      * destruct H3 as [? ? ? ? ? H3|? ? ? -> ? ?|? -> ? ?]; try apply tk_refl. eapply tk_revalidated; exact H3.
      * subst w4. apply tk_setd. intros ? E. congruence.
  - destruct H. eapply tk_trans; [eapply tk_harvested; exact H1|].
    eapply tk_trans; [|eapply tk_transferred; exact H5]. eapply tk_trans; [|eapply tk_withdrawn; exact H4].
    eapply tk_trans; [|eapply tk_resynced; exact H3]. subst w2. eapply tk_put_del; exact Hd.
  - destruct H as [c0 Hco Hc0 Hso Hbel [c1 c d w1 w2 w3 Hc1 Hva H1 Hc Hset Hau Hsig Hv Hpos Hd H2 H3 H4]].
    eapply tk_trans; [eapply tk_harvested; exact H1|]. eapply tk_trans; [|eapply tk_resynced; exact H4].
    apply tk_trans with w2; [|destruct H3 as [[_ ->]|(_ & _ & H3)]; [apply tk_refl|eapply tk_burned; exact H3]].
    subst w2. eapply tk_put_del; exact Hd.
  - destruct H. eapply tk_trans; [eapply tk_harvested; exact H1|]. eapply tk_trans; [eapply tk_harvested; exact H2|].
    eapply tk_trans; [|eapply tk_resynced; exact H6]. eapply tk_trans; [|eapply tk_resynced; exact H5].
    apply tk_trans with w3.
    + subst w3. eapply tk_put_del. rewrite Hs; reflexivity.
    + subst w4. eapply tk_put_del with (x := s_del t).
      subst w3. unfold put_del. ws. rewrite (proj2 (N.eqb_neq _ _) (not_eq_sym Hne)), Ht. reflexivity.
  - destruct H. eapply tk_trans; [eapply tk_harvested; exact H1|]. eapply tk_trans; [|eapply tk_resynced; exact H3].
    subst w2. apply tk_setd. intros ? E. congruence.
  - destruct H. subst w'. apply tk_setd. intros ? E. congruence.
Qed.

(** ** Token accounts in the custody of a vault authority *)
Lemma token_not_zero e : env_ok e -> e_token e <> 0.
Proof. intros OK. destruct (prog_ids _ OK) as (_ & _ & _ & _ & _ & _ & P & _). intros E. pose proof (ok_ids _ OK) as N. rewrite E in N. inversion N. set_solver. Qed.
Lemma custody_step e w ev w' k ck n : env_ok e -> step e w ev w' -> in_custody e w k ck n -> exists n', in_custody e w' k ck n'.
Proof.
  intros OK ST (O & t & D & T1 & T2 & T3 & T4). inversion ST as [? cx0 c ? WC WA RUN|? ? RE]; subst.
  - apply run_ok in RUN as (_ & DD & _). destruct (tk_did _ _ _ _ _ OK DD k t D T2) as (O' & t' & D' & S1 & S2 & S3 & S4).
    { rewrite O. now apply token_not_zero. }
    exists (t_amount t'). split; [congruence|]. exists t'. repeat (split; [congruence|]). reflexivity.
  - destruct (rely_token _ _ _ RE k t ck O D T1 T2 T3) as (O' & t' & D' & S1 & S2 & S3 & S4 & S5).
    exists (t_amount t'). split; [congruence|]. exists t'. repeat (split; [congruence|]). reflexivity.
Qed.
(** Nobody ever gets hold of such an account: neither ownership nor a delegate nor a
    close authority.  Every vault is one if it belongs to the token program when
    the config is created. *)
Theorem C88_custody e w tr w' k ck n : env_ok e -> steps e w tr w' -> in_custody e w k ck n ->
  exists n', in_custody e w' k ck n'.
Proof.
  intros OK ST. revert n. induction ST as [w|w tr w1 ev w2 ST IH S1]; intros n C; [eauto|].
  destruct (IH n C) as [n1 C1]. eapply custody_step; eauto.
Qed.
Print Assumptions C88_custody.
Lemma step_config_created e cx a s au cd b sy du w w1 : step e w (Do cx (CInitializeConfig a s au cd b sy du)) w1 ->
  config_created e cx a s au cd b sy du w w1.
Proof. intros S1. inversion S1 as [? ? ? ? WC WA RUN|]; subst. apply run_ok in RUN as (_ & D & _). now inversion D. Qed.
Theorem C88_vault_in_custody e cx a s au cd b sy du w w1 tr w2 c : env_ok e ->
  step e w (Do cx (CInitializeConfig a s au cd b sy du)) w1 -> reachable e w -> steps e w1 tr w2 ->
  own (get w (ic_vault a)) = e_token e ->
  config_at e w2 (ic_config a) c -> exists n, in_custody e w2 (cfg_vault c) (ic_config a) n.
Proof.
  intros OK S1 R ST O C2. assert (reachable e w1) as R1 by (eapply reachable_step; eauto).
  assert (in_custody e w (ic_vault a) (ic_config a) 0) as C0.
  { apply step_config_created in S1. destruct S1. split; [auto|]. eauto 10. }
  destruct (custody_step _ _ _ _ _ _ _ OK S1 C0) as [n1 C1]. destruct (C88_custody _ _ _ _ _ _ _ OK ST C1) as [n2 C3].
  exists n2. assert (cfg_vault c = ic_vault a) as ->; [|exact C3].
  assert (exists c1, config_at e w1 (ic_config a) c1 /\ cfg_vault c1 = ic_vault a) as (c1 & A1 & A2).
  { apply step_config_created in S1. destruct S1.
    assert (own (get w1 (ic_config a)) = e_prog e) as O1.
    { rewrite Ho. destruct (N.eqb_spec (ic_vault_pda a) (ic_config a)) as [E|E]; [auto|]. destruct Hco; congruence. }
    eexists. split; [split; [exact O1|]|].
    - rewrite Hd, N.eqb_refl. reflexivity.
    - reflexivity. }
  destruct (C15_config_identity _ _ _ _ _ _ OK R1 ST A1) as (c' & B1 & B2 & _).
  destruct C2 as [_ C2], B1 as [_ B1]. congruence.
Qed.
Print Assumptions C88_vault_in_custody.

(** ** Tokens sent to any other account of the vault authority are locked *)
Lemma vault_origin e cx c w w' k ck : env_ok e -> did e cx w w' c -> vault_of e w' k ck ->
  vault_of e w k ck \/ exists t, dat (get w k) = DToken t /\ t_amount t = 0.
Proof.
  intros OK D (c' & [O' D'] & V). destruct (Sane.creates c) eqn:CR.
  - destruct D; try discriminate CR; destruct H.
    + rewrite Hd in D'. destruct (N.eqb_spec (ic_config a) ck) as [<-|].
      * right. injection D' as <-. simpl in V. subst k. eauto.
      * left. exists c'. split; [|auto]. rewrite Ho in O'. destruct (N.eqb_spec (ic_vault_pda a) ck) as [<-|]; [congruence|]. split; auto.
    + rewrite Hd in D'. rewrite Ho in O'. destruct (N.eqb_spec (iv_stake a) ck) as [<-|]; [discriminate|]. left. exists c'. split; [split|]; auto.
    + rewrite Hd in D'. rewrite Ho in O'. destruct (N.eqb_spec (is_val a) ck) as [<-|]; [discriminate|].
      destruct (N.eqb_spec (is_stake a) ck) as [<-|]; [discriminate|]. left. exists c'. split; [split|]; auto.
  - left. destruct (did_evolves _ _ _ _ _ OK D CR) as [A B _]. rewrite A in O'. pose proof (B ck O') as I. rewrite D' in I.
    apply same_id_config in I as (c0 & D0 & V0 & _). exists c0. split; [split; auto|congruence].
Qed.
Theorem C88_locked e w tr w' k ck n : env_ok e -> reachable e w -> steps e w tr w' ->
  in_custody e w k ck n -> 0 < n -> ~ vault_of e w k ck ->
  ~ vault_of e w' k ck /\ exists n', in_custody e w' k ck n' /\ n <= n'.
Proof.
  intros OK R ST C P NV. induction ST as [w|w tr w1 ev w2 ST IH S1]; [eauto using N.le_refl|].
  destruct (IH R C NV) as (NV1 & n1 & C1 & L1). clear IH.
  assert (reachable e w1) as R1 by (eapply reachable_steps; eauto).
  pose proof (custody_step _ _ _ _ _ _ _ OK S1 C1) as [n2 C2].
  destruct C1 as (O & t & D & T1 & T2 & T3 & T4).
  inversion S1 as [? cx0 c ? WC WA RUN|? ? RE]; subst.
  - pose proof (run_ok _ _ _ _ _ RUN) as (_ & DD & _). split.
    + intros V. destruct (vault_origin _ _ _ _ _ _ _ OK DD V) as [V0|(t0 & E0 & Z)]; [auto|]. assert (t0 = t) by congruence. subst t0. lia.
    + exists n2. split; [auto|]. destruct C2 as (O2 & t2 & D2 & _ & _ & _ & T8).
      destruct (N.le_gt_cases (t_amount t) n2) as [|LT]; [lia|exfalso].
      destruct (C13_token_authorisation e cx0 c w1 w2 k t OK R1 RUN) as (x & [->|X] & A); [|auto| |congruence].
      { unfold tokens. rewrite O2, D2, O, D, N.eqb_refl. lia. }
      rewrite T1 in A. assert (pda e (e_vault e ck)) as PV by (right; right; left; eauto).
      destruct WC as [WS _].
      assert (forall a, k = sl_vault a -> (signed cx0 (e_vault e ck) = true \/ e_vault e ck = e_vault e (sl_config a)) ->
        forall m, slashed_any e cx0 a m w1 w2 -> False) as SL.
      { intros a K [B|B] m H; [now apply WS in B|]. apply (ok_vault_inj _ OK) in B. subst ck. apply NV1.
        destruct H as [c0 Hco Hc0 Hso Hbel H]. exists c0. split; [split; auto|].
        destruct H. destruct (harvested_net _ _ _ _ _ _ _ _ _ H1) as (cc & d1 & h & rpt & sr & hr & RD & _ & _ & _ & _ & CC & _).
        assert (DC := rd_c _ _ _ _ _ _ _ _ _ _ _ RD). rewrite Hc in CC. injection CC as ->. rewrite K, Hv.
        rewrite Hc0 in DC. injection DC as <-. reflexivity. }
      destruct DD; try contradiction; destruct A as [A1 A2].
      * now apply WS in A2.
      * eapply SL; eauto.
      * now apply WS in A2.
      * rewrite A2 in PV. now apply (ok_pool_pda _ OK) in PV.
      * eapply SL; eauto.
  - split.
    + intros (c & V1 & V2). apply NV1. exists c. split; [eapply rely_config; eauto|auto].
    + destruct (rely_token _ _ _ RE k t ck O D T1 T2 T3) as (O' & t' & D' & _ & _ & _ & _ & S5).
      exists n2. split; [auto|]. destruct C2 as (_ & t2 & D2 & _ & _ & _ & T8). assert (t2 = t') by congruence. subst. lia.
Qed.
Print Assumptions C88_locked.

(** ** Creation, however long it waited *)
Theorem C88_validator_creatable e w tr w' cx a c wd : env_ok e -> reachable e w -> steps e w tr w' ->
  iv_stake a = e_val e (iv_vote a) (iv_config a) -> unused e w (iv_stake a) 144 ->
  (forall ev, In ev tr -> ~ creates_at ev (iv_stake a)) ->
  wf_ctx e cx -> writable cx (iv_stake a) = true ->
  config_at e w' (iv_config a) c -> own (get w' (iv_vote a)) = e_votep e /\ dat (get w' (iv_vote a)) = DVote wd ->
  document_signed e w' (iv_duna a) wd (cfg_duna c) ->
  exists w'', step e w' (Do cx (CInitializeValidatorStake a)) w''.
Proof.
  intros OK R ST K (F1 & F2 & F3) NC WC W C V DS. apply C51_init_validator_stake; auto. exists c, wd.
  assert (stake_address e (iv_stake a)) as A by (left; eauto).
  destruct (C88_waiting _ _ _ _ _ OK R ST A (conj F1 F2) NC) as [[G1 G2] G3].
  split; auto. split; [auto|]. split; [auto|]. split; [auto|lia].
Qed.
Print Assumptions C88_validator_creatable.
Theorem C88_staker_creatable e w tr w' cx a c vw v : env_ok e -> reachable e w -> steps e w tr w' ->
  is_stake a = e_sol e (is_native a) (is_config a) -> unused e w (is_stake a) 168 ->
  (forall ev, In ev tr -> ~ creates_at ev (is_stake a)) ->
  wf_ctx e cx -> writable cx (is_stake a) = true -> writable cx (is_val a) = true ->
  config_at e w' (is_config a) c ->
  is_view a = e_view e /\ c_view cx = Some vw /\ vw_vote vw <> 0 /\ vw_withdrawer vw <> 0 ->
  document_signed e w' (is_duna a) (vw_withdrawer vw) (cfg_duna c) ->
  is_val a = e_val e (vw_vote vw) (is_config a) /\ val_at e w' (is_val a) v /\ v_total v + vw_effective vw < 2 ^ 64 ->
  is_override a = e_override e (vw_withdrawer vw) (is_config a) ->
  exists w'', step e w' (Do cx (CInitializeSolStakerStake a)) w''.
Proof.
  intros OK R ST K (F1 & F2 & F3) NC WC W1 W2 C V DS VA OV. apply C51_init_sol_staker_stake; auto. exists c, vw, v.
  assert (stake_address e (is_stake a)) as A by (right; eauto).
  destruct (C88_waiting _ _ _ _ _ OK R ST A (conj F1 F2) NC) as [[G1 G2] G3].
  assert (reachable e w') as R' by (eapply reachable_steps; eauto).
  split; auto.
  - split; [auto|]. split; [auto|]. split; [auto|lia].
  - split; [auto|]. left. rewrite OV. apply (C88_override_address _ _ _ _ OK R').
Qed.
Print Assumptions C88_staker_creatable.

(** ** The first one keeps it *)
Theorem C88_first_keeps e w tr w' k s : env_ok e -> reachable e w -> steps e w tr w' -> sol_at e w k s ->
  (exists s', sol_at e w' k s' /\ s_native s' = s_native s /\ authority (s_del s') = authority (s_del s)) /\
  (forall ev, In ev tr -> ~ creates_at ev k).
Proof.
  intros OK R ST S. split; [eapply C15_staker_identity; eauto|].
  induction ST as [w|w tr w1 ev w2 ST IH S1]; [intros ? []|]. intros x X. apply in_app_iff in X as [X|[<-|[]]]; [auto|].
  assert (reachable e w1) as R1 by (eapply reachable_steps; eauto).
  destruct (C15_staker_identity _ _ _ _ _ _ OK R ST S) as (s' & [O D] & _).
  destruct (prog_ids _ OK) as (P0 & _).
  inversion S1 as [? cx0 c ? WC WA RUN|? ? RE]; subst; [|intros []].
  pose proof (C15_no_reinitialisation _ _ _ _ _ OK R1 RUN) as N. intros E.
  destruct c; try contradiction; simpl in E; subst k; destruct N as [N _]; congruence.
Qed.
Print Assumptions C88_first_keeps.

(** ** Cases *)
Lemma at_end_steps l1 l2 : runs (l1 ++ l2) = true -> steps denv (at_end l1) (map event_of l2) (at_end (l1 ++ l2)).
Proof.
  induction l2 as [|a l2 IH] using rev_ind; intros RU; [rewrite app_nil_r; constructor|].
  rewrite app_assoc in *. rewrite map_app. econstructor; [apply IH|apply (at_end_step _ _ RU)].
  unfold runs, after in *. rewrite play_app in RU. destruct (play none_in world0 0 (l1 ++ l2)) as [[]|]; auto.
Qed.
Local Ltac calc := first [vm_compute; reflexivity | vm_compute; discriminate].
(* the second native stake's address waits through other events *)
Definition waits : list act := [Pay carol ksol2 500] ++ skipn 6 (firstn 11 story).
Example C88_waiting_case : reachable denv (at_end setup) /\ stake_address denv ksol2 /\
  unused denv (at_end setup) ksol2 168 /\
  steps denv (at_end setup) (map event_of waits) (at_end (setup ++ waits)) /\
  (forall ev, In ev (map event_of waits) -> ~ creates_at ev ksol2) /\
  free (at_end (setup ++ waits)) ksol2 /\ lam (get (at_end (setup ++ waits)) ksol2) = lam (get (at_end setup) ksol2) + 500 /\
  runs (setup ++ waits ++ [init_sol nat2 vote2 bob 5000]) = true.
Proof.
  split; [apply at_end_reachable; calc|]. split; [right; exists nat2, kcfg; reflexivity|].
  split; [split; [calc|]; split; calc|]. split; [apply at_end_steps; calc|].
  split; [|split; [split; calc|split; calc]].
  intros ev I E. cbn in I. repeat (destruct I as [<-|I]; [exact E|]). exact I.
Qed.
(* the rightful account *)
Example C88_address_case : reachable denv (at_end story) /\
  sol_at denv (at_end story) ksol2 (sol_of (at_end story) ksol2) /\ val_at denv (at_end story) kval1 (val_of (at_end story) kval1) /\
  free (at_end story) (e_val denv vote1 kcfg2).
Proof. split; [apply at_end_reachable; calc|]. split; [split; calc|]. split; [split; calc|]. split; calc. Qed.
(* the withdrawer of the native stake is now somebody else, and a harvest that is told so still pays the first one *)
Definition paid_in : list act := setup ++ [Pay carol kcfg 1000000].
Definition told : act := harvest_sol nat1 bob vote1 alice vote1 alice None (View vote1 carol 1000).
Theorem C88_authority_follows_refuted : exists e cx a w w' vw s,
  env_ok e /\ reachable e w /\ step e w (Do cx (CHarvestSolStakerRewards a)) w' /\
  c_view cx = Some vw /\ sol_at e w' (hs_stake a) s /\ s_native s = hs_native a /\
  authority (s_del s) <> vw_withdrawer vw /\
  lam (get w (authority (s_del s))) < lam (get w' (authority (s_del s))) /\
  lam (get w' (vw_withdrawer vw)) = lam (get w (vw_withdrawer vw)).
Proof.
  assert (runs (paid_in ++ [told]) = true) as RU by calc.
  pose proof (at_end_step _ _ RU) as ST. unfold told at 1 in ST. unfold harvest_sol in ST. cbn [event_of] in ST.
  eexists denv, _, _, (at_end paid_in), (at_end (paid_in ++ [told])), (View vote1 carol 1000), (sol_of (at_end (paid_in ++ [told])) ksol1).
  split; [apply denv_ok|]. split; [apply at_end_reachable; calc|]. split; [exact ST|].
  split; [reflexivity|]. split; [split; calc|]. split; [calc|]. split; [calc|]. split; calc.
Qed.
Print Assumptions C88_authority_follows_refuted.
Example C88_first_keeps_case : reachable denv (at_end setup) /\
  steps denv (at_end setup) (map event_of (skipn 6 story)) (at_end (setup ++ skipn 6 story)) /\
  sol_at denv (at_end setup) ksol1 (sol_of (at_end setup) ksol1) /\
  authority (s_del (sol_of (at_end setup) ksol1)) = bob.
Proof.
  split; [apply at_end_reachable; calc|]. split; [apply at_end_steps; calc|]. split; [split; calc|calc].
Qed.
(* one token sent to the prepared vault of the second config before it exists *)
Definition soiled : list act := setup ++ [Set_ kvtok2 (tok kmint (e_vault denv kcfg2) 1)].
Definition init_second : call :=
  CInitializeConfig (InitConfigA kcfg2 kmint (e_vault denv kcfg2) kvtok2 (e_holder denv (e_vault denv kcfg2))) slasher gov 1000 5000 100 docs.
Example C88_locked_case : reachable denv (at_end soiled) /\ in_custody denv (at_end soiled) kvtok2 kcfg2 1 /\
  ~ vault_of denv (at_end soiled) kvtok2 kcfg2 /\
  runs (setup ++ [Call (cx [] 0 None 0) init_second]) = true /\
  run denv (cx [] 0 None 0) init_second (at_end soiled) = Err (Stake AmountGreaterThanZero).
Proof.
  split; [apply at_end_reachable; calc|]. split; [|split; [|split; calc]].
  - split; [calc|]. exists (Tok kmint (e_vault denv kcfg2) 1 None 0 None false). repeat (split; [calc|]). reflexivity.
  - intros (c & [_ D] & _). vm_compute in D. discriminate.
Qed.
Example C88_custody_case : exists n, in_custody denv (at_end story) kvtok kcfg n /\
  in_custody denv (at_end setup) kvtok kcfg 0 /\
  steps denv (at_end setup) (map event_of (skipn 6 story)) (at_end (setup ++ skipn 6 story)) /\
  vault_of denv (at_end story) kvtok kcfg.
Proof.
  exists 10. split; [|split; [|split; [apply at_end_steps; calc|]]].
  - split; [calc|]. exists (Tok kmint kpda 10 None 0 None false). repeat (split; [calc|]). reflexivity.
  - split; [calc|]. exists (Tok kmint kpda 0 None 0 None false). repeat (split; [calc|]). reflexivity.
  - exists (cfg_of (at_end story) kcfg). split; [split; calc|calc].
Qed.
