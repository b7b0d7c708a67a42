(** Token balances and mint supplies through every instruction. *)
From Verif Require Import Base Types Layout Instr Math External Processor Runtime History Spec
  WorldLemmas Effects Handlers Evolve Sane Wf Totals Nets Caps Deposits.

(** Data that is neither a token account nor a mint. *)
Definition plain (D : adata) : Prop := match D with DToken _ | DMint _ => False | _ => True end.
(** Only data of that sort changed. *)
Definition cframe (w w' : world) : Prop := forall k,
  (own (get w' k) = own (get w k) /\ dat (get w' k) = dat (get w k)) \/
  (plain (dat (get w k)) /\ plain (dat (get w' k))).
Lemma cframe_refl w : cframe w w.
Proof. intros k. auto. Qed.
Lemma cframe_trans w1 w2 w3 : cframe w1 w2 -> cframe w2 w3 -> cframe w1 w3.
Proof.
  intros A B k. destruct (A k) as [[A1 A2]|[A1 A2]], (B k) as [[B1 B2]|[B1 B2]].
  - left. split; congruence.
  - right. rewrite <- A2. auto.
  - right. rewrite B2. auto.
  - auto.
Qed.
Lemma cframe_tokens e w w' k : cframe w w' -> tokens e w' k = tokens e w k.
Proof.
  intros F. unfold tokens. destruct (F k) as [[-> ->]|[A B]]; auto.
  destruct (dat (get w k)), (dat (get w' k)); simpl in *; try tauto;
    destruct (_ =? _), (_ =? _); auto.
Qed.
Lemma cframe_supply w w' k : cframe w w' -> supply w' k = supply w k.
Proof.
  intros F. unfold supply. destruct (F k) as [[_ ->]|[A B]]; auto.
  destruct (dat (get w k)), (dat (get w' k)); simpl in *; tauto.
Qed.
Lemma cframe_token w w' k t : cframe w w' ->
  dat (get w' k) = DToken t -> own (get w' k) = own (get w k) /\ dat (get w k) = DToken t.
Proof.
  intros F D. destruct (F k) as [[-> E]|[A B]]; [split; congruence|]. rewrite D in B. contradiction.
Qed.
Lemma cframe_token' w w' k t : cframe w w' ->
  dat (get w k) = DToken t -> own (get w' k) = own (get w k) /\ dat (get w' k) = DToken t.
Proof.
  intros F D. destruct (F k) as [[-> E]|[A B]]; [split; congruence|]. rewrite D in A. contradiction.
Qed.
Lemma plain_del D d : del_of D = Ok d -> plain D.
Proof. destruct D; simpl; auto; discriminate. Qed.
Lemma plain_upd D d : plain D -> plain (upd_del D d).
Proof. destruct D; simpl; auto. Qed.
Lemma cframe_setd w k D : plain (dat (get w k)) -> plain D -> cframe w (setd w k D).
Proof. intros A B k'. ws. destruct (N.eqb_spec k k') as [EE|]; [rewrite <- EE|]; auto. Qed.
Lemma cframe_put_del w k x y : del_of (dat (get w k)) = Ok x -> cframe w (put_del w k y).
Proof. intros H. apply cframe_setd; [|apply plain_upd]; eapply plain_del; eauto. Qed.
Lemma cframe_harvest e w ck vhr auth va sk keeper w' : harvested e w ck vhr auth va sk keeper w' -> cframe w w'.
Proof.
  intros [] k. rewrite Ho, Hdat. destruct (N.eqb_spec ck k) as [EE|].
  { right. rewrite <- EE, Hc. simpl. auto. }
  destruct (N.eqb_spec sk k) as [EE|]; auto. right. rewrite <- EE. split; [|apply plain_upd]; eapply plain_del; eauto.
Qed.
Lemma cframe_resync w ck sk lim w' : resynced w ck sk lim w' -> cframe w w'.
Proof.
  intros [] k. rewrite Ho, Hdat. destruct (N.eqb_spec ck k) as [EE|].
  { right. rewrite <- EE, Hc. simpl. auto. }
  destruct (N.eqb_spec sk k) as [EE|]; auto. right. rewrite <- EE. split; [|apply plain_upd]; eapply plain_del; eauto.
Qed.
Lemma cframe_setl w k n : cframe w (setl w k n).
Proof. intros k'. left. ws. auto. Qed.
Lemma cframe_synced w ck w' : synced_cfg w ck w' -> cframe w w'.
Proof. intros [c rpt Hc _ _ ->]. apply cframe_setd; [rewrite Hc|]; exact I. Qed.
Lemma cframe_same w w' : (forall k, own (get w' k) = own (get w k)) ->
  (forall k, dat (get w' k) = dat (get w k)) -> cframe w w'.
Proof. intros A B k. auto. Qed.
Lemma cframe_revalidated e w ck vhr vs vk vauth f w' : revalidated e w ck vhr vs vk vauth f w' -> cframe w w'.
Proof.
  intros []. eapply cframe_trans; [eapply cframe_harvest; eauto|].
  eapply cframe_trans; [|eapply cframe_resync; eauto]. subst w2. apply cframe_setd; [rewrite Hv|]; exact I.
Qed.
Lemma cframe_left e w a s w' : left_ok e w a s w' -> cframe w w'.
Proof. intros []; [eapply cframe_revalidated; eauto|subst; apply cframe_refl]. Qed.
Lemma cframe_joined e w a cv cs w' cv' cs' : joined_ok e w a cv cs w' cv' cs' -> cframe w w'.
Proof. intros []; [eapply cframe_revalidated; eauto|subst; apply cframe_refl..]. Qed.
Lemma cframe_harvested_sol e cx a w w' : harvested_sol_ok e cx a w w' -> cframe w w'.
Proof.
  intros []; [eapply cframe_harvest; eauto|].
  eapply cframe_trans; [eapply cframe_harvest; eauto|]. eapply cframe_trans; [eapply cframe_left; eauto|].
  eapply cframe_trans; [eapply cframe_joined; eauto|]. eapply cframe_trans; [|eapply cframe_resync; eauto].
  subst w4. apply cframe_setd; [rewrite Hs3|]; exact I.
Qed.
Lemma cframe_held e cx a w w' : held_ok e cx a w w' -> cframe w w'.
Proof.
  intros []. eapply cframe_trans; [eapply cframe_synced; eauto|]. eapply cframe_trans.
  { instantiate (1 := w2). destruct H2. intros k. rewrite Ho, Hdat. destruct (N.eqb_spec (hh_vhr a) k) as [EE|]; auto.
    right. rewrite <- EE, Hh. simpl. auto. }
  eapply cframe_trans. { instantiate (1 := w3). subst w3. eapply cframe_trans; apply cframe_setl. }
  subst w'. apply cframe_setd; [|exact I]. subst w3. ws. rewrite Hc. exact I.
Qed.
Lemma cframe_moved e cx a n w w' : moved_ok e cx a n w w' -> cframe w w'.
Proof.
  intros []. eapply cframe_trans; [eapply cframe_harvest; eauto|]. eapply cframe_trans; [eapply cframe_harvest; eauto|].
  assert (del_of (dat (get w2 (mv_source a))) = Ok (s_del s)) as D1 by (rewrite Hs; reflexivity).
  assert (del_of (dat (get w3 (mv_dest a))) = Ok (s_del t)) as D2.
  { subst w3. ws. rewrite (proj2 (N.eqb_neq (mv_source a) (mv_dest a))) by auto. rewrite Ht. reflexivity. }
  eapply cframe_trans. { instantiate (1 := w3). subst w3. eapply cframe_put_del; eauto. }
  eapply cframe_trans. { instantiate (1 := w4). subst w4. eapply cframe_put_del; eauto. }
  eapply cframe_trans; eapply cframe_resync; eauto.
Qed.
Lemma cframe_overridden e cx a n w w' : overridden_ok e cx a n w w' -> cframe w w'.
Proof.
  intros []. eapply cframe_trans; [eapply cframe_harvest; eauto|]. eapply cframe_trans; [|eapply cframe_resync; eauto].
  subst w2. apply cframe_setd; [rewrite Hv|]; exact I.
Qed.

(** Instructions that move tokens. *)
Definition moves (c : call) : bool :=
  match c with
  | CValidatorStakeTokens _ _ | CSolStakerStakeTokens _ _ | CUnstakeTokens _ _
  | CSlashValidatorStake _ _ | CSlashSolStakerStake _ _ => true
  | _ => false
  end.
Lemma cframe_did e cx w w' c : did e cx w w' c -> moves c = false -> (forall k, own (get w k) = e_prog e -> plain (dat (get w k))) ->
  cframe w w'.
Proof.
  intros D M P. destruct D; try discriminate M.
  - destruct H. intros k. rewrite Ho, Hd. destruct (N.eqb_spec (ic_config a) k) as [EE|].
    + right. split; [|exact I]. rewrite <- EE. destruct Hco as [A|A]; auto. rewrite A, Hve. exact I.
    + destruct (N.eqb_spec (ic_vault_pda a) k) as [EE|]; auto. right. rewrite <- EE, Hve. simpl. auto.
  - destruct H. intros k. rewrite Ho, Hd. destruct (N.eqb_spec (iv_stake a) k) as [EE|]; auto.
    right. rewrite <- EE, Hsd. simpl. auto.
  - eapply cframe_held; eauto.
  - destruct H. eapply cframe_harvest; eauto.
  - destruct H. subst w'. apply cframe_setd; [rewrite Hc|]; exact I.
  - destruct H. subst w'. apply cframe_setd; [rewrite Hc|]; exact I.
  - destruct H. intros k. rewrite Ho, Hd. destruct (N.eqb_spec (is_val a) k) as [EE|].
    { right. rewrite <- EE, Hv. simpl. auto. }
    destruct (N.eqb_spec (is_stake a) k) as [EE|]; auto. right. rewrite <- EE, Hsd. simpl. auto.
  - eapply cframe_harvested_sol; eauto.
  - eapply cframe_moved; eauto.
  - eapply cframe_overridden; eauto.
  - destruct H. subst w'. eapply cframe_put_del. rewrite Hv. reflexivity.
Qed.

(** ** Transfers *)
Definition at_key (k x n : N) : N := if k =? x then n else 0.
Definition shifted (e : env) (w w' : world) (src dst n : N) : Prop :=
  forall k, tokens e w' k + at_key k src n = tokens e w k + at_key k dst n.
Lemma transferred_shift e sig w src mnt dst auth n w' : transferred e sig w src mnt dst auth n w' ->
  shifted e w w' src dst n /\ (forall k, supply w' k = supply w k).
Proof.
  intros []. split.
  - intros k. unfold tokens, at_key. rewrite Ho, Hdat. destruct (N.eqb_spec src dst) as [->|NE].
    + reflexivity.
    + destruct (N.eqb_spec src k) as [EE|N1].
      * rewrite <- EE, Hso, N.eqb_refl, N.eqb_refl, Hs. simpl.
        rewrite (proj2 (N.eqb_neq _ _) NE). lia.
      * rewrite (proj2 (N.eqb_neq k src)) by auto. destruct (N.eqb_spec dst k) as [EE|N2].
        -- rewrite <- EE, Hdo, N.eqb_refl, N.eqb_refl, Hd. simpl. lia.
        -- rewrite (proj2 (N.eqb_neq k dst)) by auto. reflexivity.
  - intros k. unfold supply. rewrite Hdat. destruct (src =? dst); auto.
    destruct (N.eqb_spec src k) as [EE|]; [rewrite <- EE, Hs; auto|].
    destruct (N.eqb_spec dst k) as [EE|]; [rewrite <- EE, Hd; auto|]. auto.
Qed.
(** Who allowed a token account to be debited. *)
Definition allowed (sig : pubkey -> bool) (t : token) : Prop :=
  exists x, sig x = true /\ (x = t_owner t \/ t_delegate t = Some x).
Lemma transferred_allowed e sig w src mnt dst auth n w' : transferred e sig w src mnt dst auth n w' ->
  exists t, dat (get w src) = DToken t /\ allowed sig t.
Proof.
  intros []. exists s. split; auto. apply token_authorise_ok in Hau as (A & B & _). exists auth. auto.
Qed.
(** Token accounts keep their owner. *)
Lemma transferred_owner e sig w src mnt dst auth n w' k t' : transferred e sig w src mnt dst auth n w' ->
  dat (get w' k) = DToken t' ->
  own (get w' k) = own (get w k) /\ exists t, dat (get w k) = DToken t /\ t_owner t' = t_owner t /\ t_mint t' = t_mint t.
Proof.
  intros []. rewrite Ho, Hdat. intros D. split; auto. apply token_authorise_ok in Hau as (_ & _ & A1 & A2 & _).
  destruct (src =? dst); [eauto|]. destruct (N.eqb_spec src k) as [EE|].
  - injection D as <-. exists s. rewrite <- EE. simpl. auto.
  - destruct (N.eqb_spec dst k) as [EE|]; [|eauto]. injection D as <-. exists d. rewrite <- EE. auto.
Qed.
Lemma deposited_shift e sig w pool ptok vhr tacc mnt owner n acc w' :
  deposited_ok e sig w pool ptok vhr tacc mnt owner n acc w' ->
  shifted e w w' tacc ptok n /\ (forall k, supply w' k = supply w k).
Proof.
  intros []. assert (cframe w w1) as F1 by (subst w1; apply cframe_setd; [rewrite Hh|]; exact I).
  assert (cframe w2 w') as F2 by (apply cframe_same; auto).
  apply transferred_shift in Hw2 as [A B]. split; intros k.
  - rewrite (cframe_tokens e _ _ _ F2). rewrite <- (cframe_tokens e _ _ k F1). apply A.
  - rewrite (cframe_supply _ _ _ F2), B. now apply cframe_supply.
Qed.
Lemma withdrawn_shift e sig w pool ptok vhr tacc mnt owner n acc w' :
  withdrawn_ok e sig w pool ptok vhr tacc mnt owner n acc w' ->
  exists h, vhr = e_holder e owner /\ dat (get w vhr) = DHolder h /\ withdraw_amount h n <= h_deposited h /\
  shifted e w w' ptok tacc (withdraw_amount h n) /\ (forall k, supply w' k = supply w k).
Proof.
  intros []. exists h. assert (cframe w w1) as F1 by (subst w1; apply cframe_setd; [rewrite Hh|]; exact I).
  assert (cframe w2 w') as F2 by (apply cframe_same; auto).
  apply transferred_shift in Hw2 as [A B]. repeat (split; [assumption|]). split; intros k.
  - rewrite (cframe_tokens e _ _ _ F2). rewrite <- (cframe_tokens e _ _ k F1). apply A.
  - rewrite (cframe_supply _ _ _ F2), B. now apply cframe_supply.
Qed.
Lemma burned_shift e sig w src mnt auth n w' : burned e sig w src mnt auth n w' ->
  (forall k, tokens e w' k + at_key k src n = tokens e w k) /\
  (forall k, supply w' k + at_key k mnt n = supply w k).
Proof.
  intros []. assert (src <> mnt) by (intros ->; congruence). split; intros k.
  - unfold tokens, at_key. rewrite Ho, Hdat. destruct (N.eqb_spec src k) as [EE|N1].
    + rewrite <- EE, Hso, !N.eqb_refl, Hs. simpl. lia.
    + rewrite (proj2 (N.eqb_neq k src)) by auto. rewrite N.add_0_r.
      destruct (N.eqb_spec mnt k) as [EE|]; auto. rewrite <- EE, Hm. destruct (_ =? _); auto.
  - unfold supply, at_key. rewrite Hdat. destruct (N.eqb_spec src k) as [EE|N1].
    + rewrite <- EE, Hs. rewrite (proj2 (N.eqb_neq src mnt)) by auto. auto.
    + destruct (N.eqb_spec mnt k) as [EE|N2].
      * rewrite <- EE, N.eqb_refl, Hm. simpl. lia.
      * rewrite (proj2 (N.eqb_neq k mnt)) by auto. lia.
Qed.

(** ** Staking *)
Lemma staked_before e cx a n w w' : staked_ok e cx a n w w' ->
  exists w3 w4, cframe w w3 /\
    transferred e (signed cx) w3 (st_source a) (st_mint a) (st_vault a) (st_source_auth a) n w4 /\
    deposited_ok e (with_pda cx (e_vault e (st_config a))) w4 (st_pool a) (st_ptok a) (st_vhr a)
            (st_vault a) (st_mint a) (st_vault_pda a) n (c_pool_acc cx mod U128) w' /\
    st_vault_pda a = e_vault e (st_config a) /\ 0 < n.
Proof.
  intros []. exists w3, w4. split; [|auto]. eapply cframe_trans; [eapply cframe_harvest; eauto|].
  eapply cframe_trans; [|eapply cframe_resync; eauto]. subst w2. eapply cframe_put_del; eauto.
Qed.
Lemma staked_tokens e cx a n w w' : staked_ok e cx a n w w' ->
  shifted e w w' (st_source a) (st_ptok a) n /\ (forall k, supply w' k = supply w k).
Proof.
  intros H. apply staked_before in H as (w3 & w4 & F & T & D & _ & _).
  apply transferred_shift in T as [A B]. apply deposited_shift in D as [A' B']. split; intros k.
  - specialize (A k). specialize (A' k). rewrite (cframe_tokens e _ _ k F) in A. lia.
  - rewrite B', B. now apply cframe_supply.
Qed.
(** The vault is not the pool's token account. *)
Lemma staked_vault_ptok e cx a n w w' : env_ok e -> staked_ok e cx a n w w' -> st_vault a <> st_ptok a.
Proof.
  intros OK H. apply staked_before in H as (w3 & w4 & F & T & D & V & _). destruct D.
  destruct Hpt as (p & P1 & _ & P3 & _). destruct Hta as (t & T1 & _ & T3 & _). intros E. rewrite E in T1.
  apply (ok_pool_pda _ OK (st_mint a)). right. right. left. exists (st_config a). congruence.
Qed.

(** ** Unstaking *)
Lemma unstaked_before e cx a n w w' : unstaked_ok e cx a n w w' ->
  exists w3 w4, cframe w w3 /\
    withdrawn_ok e (with_pda cx (e_vault e (un_config a))) w3 (un_pool a) (un_ptok a) (un_vhr a)
            (un_vault a) (un_mint a) (un_vault_pda a) n (c_pool_acc cx mod U128) w4 /\
    transferred e (with_pda cx (e_vault e (un_config a))) w4 (un_vault a) (un_mint a) (un_dest a)
            (un_vault_pda a) n w' /\
    un_vault_pda a = e_vault e (un_config a) /\ un_vault a <> un_dest a /\ hframe w w3.
Proof.
  intros []. exists w3, w4. split; [|split; [auto|split; [auto|split; [auto|split; [auto|]]]]].
  - eapply cframe_trans; [eapply cframe_harvest; eauto|].
    eapply cframe_trans; [|eapply cframe_resync; eauto]. subst w2. eapply cframe_put_del; eauto.
  - eapply hframe_trans; [eapply hframe_harvest; eauto|]. eapply hframe_trans; [|eapply hframe_resync; eauto].
    subst w2. eapply hframe_put_del; eauto.
Qed.
Lemma unstaked_tokens e cx a n w w' : unstaked_ok e cx a n w w' -> wf_world w ->
  sum_of e w (un_config a) staked <= deposit e w (un_config a) ->
  shifted e w w' (un_ptok a) (un_dest a) n /\ (forall k, supply w' k = supply w k).
Proof.
  intros H WF BK.
  assert (n <= deposit e w (un_config a)) as LE.
  { etransitivity; [|exact BK]. destruct H. destruct (sframe_harvest _ _ _ _ _ _ _ _ _ H1) as [_ SF].
    specialize (SF _ Hso). rewrite (stk_del _ _ Hd), (stk_del _ _ Hd0) in SF. injection SF as SF _.
    rewrite SF in Ham. etransitivity; [exact Ham|].
    apply (sum_of_ge e w (un_config a) staked (un_stake a)). now apply stake_of_intro. }
  apply unstaked_before in H as (w3 & w4 & F & W & T & V & _ & HF).
  apply withdrawn_shift in W as (h & Vh & Dh & Le & A & B). apply transferred_shift in T as [A' B'].
  assert (withdraw_amount h n = n) as WA.
  { unfold withdraw_amount. destruct (N.eqb_spec n (U64 - 1)) as [->|]; auto.
    rewrite Vh, V in Dh. apply HF in Dh. unfold deposit in LE. rewrite Dh in LE.
    pose proof (wf_dat _ (e_holder e (e_vault e (un_config a))) WF) as WD. rewrite Dh in WD. simpl in WD. lia. }
  rewrite WA in A. split; intros k.
  - specialize (A k). specialize (A' k). rewrite (cframe_tokens e _ _ k F) in A. lia.
  - rewrite B', B. now apply cframe_supply.
Qed.
(** The pool's token account is not the vault. *)
Lemma unstaked_vault_ptok e cx a n w w' : env_ok e -> unstaked_ok e cx a n w w' -> un_vault a <> un_ptok a.
Proof.
  intros OK H. apply unstaked_before in H as (w3 & w4 & F & W & T & V & _). destruct W.
  destruct Hpt as (p & P1 & _ & P3 & _). destruct Hta as (t & T1 & _ & T3 & _). intros E. rewrite E in T1.
  apply (ok_pool_pda _ OK (un_mint a)). right. right. left. exists (un_config a). congruence.
Qed.

(** ** Slashing *)
Lemma slashed_tokens e cx a n w w' d : slashed_ok e cx a n w w' -> own (get w (sl_stake a)) = e_prog e ->
  del_of (dat (get w (sl_stake a))) = Ok d ->
  (forall k, tokens e w' k + at_key k (sl_vault a) (N.min n (staked d)) = tokens e w k) /\
  (forall k, supply w' k + at_key k (sl_mint a) (N.min n (staked d)) = supply w k) /\
  (0 < N.min n (staked d) -> exists t, dat (get w (sl_vault a)) = DToken t /\ allowed (with_pda cx (sl_vault_auth a)) t).
Proof.
  intros [] O D0. destruct (sframe_harvest _ _ _ _ _ _ _ _ _ H1) as [_ SF].
  specialize (SF _ O). rewrite (stk_del _ _ Hd), (stk_del _ _ D0) in SF. injection SF as SF _. rewrite SF in H3.
  assert (cframe w w2) as F1.
  { eapply cframe_trans; [eapply cframe_harvest; eauto|]. subst w2. eapply cframe_put_del; eauto. }
  apply cframe_resync in H4 as F2. destruct H3 as [[Z ->]|(P & _ & B)].
  - rewrite Z. unfold at_key. split; [|split; [|lia]]; intros k; destruct (_ =? _); rewrite N.add_0_r.
    1,2: rewrite (cframe_tokens e _ _ k F2); apply cframe_tokens; auto.
    1,2: rewrite (cframe_supply _ _ k F2); apply cframe_supply; auto.
  - split; [|split].
    + intros k. apply burned_shift in B as [B _]. rewrite (cframe_tokens e _ _ k F2), B. now apply cframe_tokens.
    + intros k. apply burned_shift in B as [_ B]. rewrite (cframe_supply _ _ k F2), B. now apply cframe_supply.
    + intros _. destruct B. exists s. split; [eapply cframe_token; eauto|].
      apply token_authorise_ok in Hau0 as (X & Y & _). eexists; eauto.
Qed.

(** ** Recapping *)
Lemma capped_of e w k d : del_of (dat (get w k)) = Ok d ->
  effective d = N.min (staked d) (cap (limits (dat (get w k)))) -> capped_exactly e w k.
Proof.
  intros D E. split; intros x [_ X]; rewrite X in *; simpl in *; injection D as <-; auto.
  rewrite N.max_0_r in E. exact E.
Qed.
Lemma chained_capped e w ck va sk F lim w' : chained e w ck va sk F lim w' ->
  (forall c rpt h, lim = limits (F (with_del (settle_del c rpt h) (dat (get w sk))))) -> capped_exactly e w' sk.
Proof.
  intros [] L. eapply capped_of; rewrite Hsk; [eapply del_of_upd'; eauto|]. rewrite limits_upd, HD2, <- L. reflexivity.
Qed.
Lemma chained_capped_del e w ck va sk g w' :
  chained e w ck va sk (with_del g) (limits (dat (get w sk))) w' -> capped_exactly e w' sk.
Proof. intros C. eapply chained_capped; [exact C|]. intros. now rewrite !limits_with_del. Qed.
