(** Calls to other programs stay within the declared privileges. *)
From Verif Require Import Base Types Layout Instr Math External Processor Runtime History Spec SpecWire Declared Cpi SpecCpi
  WorldLemmas Effects Handlers Evolve Sane Wf Totals Arith Nets Caps Stakers Deposits Inv Demo Codec Touches PropDeclared.

(** ** What the called programs change *)
Definition marked (l : list meta) : list pubkey := map m_key (List.filter m_write l).
Definition within (w w' : world) (l : list pubkey) : Prop := forall k, get w' k <> get w k -> In k l.
Lemma within_same w l : within w w l.
Proof. intros k N. now destruct N. Qed.
Lemma within_trans w w1 w2 l : within w w1 l -> within w1 w2 l -> within w w2 l.
Proof.
  intros H1 H2 k N. destruct (decide (get w1 k = get w k)) as [E|E]; [|auto]. apply H2. congruence.
Qed.
Lemma within_setd w k D l : In k l -> within w (setd w k D) l.
Proof. intros I x N. unfold setd in N. rewrite get_put in N. destruct (N.eqb_spec k x); [now subst|now destruct N]. Qed.
Lemma within_setl w k D l : In k l -> within w (setl w k D) l.
Proof. intros I x N. unfold setl in N. rewrite get_put in N. destruct (N.eqb_spec k x); [now subst|now destruct N]. Qed.
Lemma within_seto w k D l : In k l -> within w (seto w k D) l.
Proof. intros I x N. unfold seto in N. rewrite get_put in N. destruct (N.eqb_spec k x); [now subst|now destruct N]. Qed.
Ltac inl := cbn; tauto.
Ltac opens H := cbv zeta in H; repeat (match type of H with bind _ _ = Ok _ => idtac end;
  apply bind_ok in H; destruct H as (? & ? & H); cbv beta zeta in H).
Ltac frame := repeat first [apply within_same | eapply within_trans; [|first [apply within_setd|apply within_setl|apply within_seto]; inl]].

Lemma transfer_within e sig w src mnt dst auth n w' l : In src l -> In dst l ->
  token_transfer e sig w src mnt dst auth n = Ok w' -> within w w' l.
Proof.
  intros I1 I2 H. unfold token_transfer in H. opens H. destruct (src =? dst); [injection H as <-; apply within_same|].
  opens H. injection H as <-. eapply within_trans; apply within_setd; auto.
Qed.
Lemma pay_within w pool owner n w' l : In pool l -> In owner l -> pool_pay w pool owner n = Ok w' -> within w w' l.
Proof.
  intros I1 I2 H. unfold pool_pay in H. destruct (n =? 0); [injection H as <-; apply within_same|].
  opens H. injection H as <-. eapply within_trans; apply within_setl; auto.
Qed.
Theorem C90_callees_change_marked e sig w w' :
  (forall src mnt dst auth n, token_transfer e sig w src mnt dst auth n = Ok w' ->
     within w w' (marked (transfer_checked_metas src mnt dst auth))) /\
  (forall acc mnt auth n, token_burn e sig w acc mnt auth n = Ok w' ->
     within w w' (marked (burn_checked_metas acc mnt auth))) /\
  (forall k o, system_assign sig w k o = Ok w' -> within w w' (marked (assign_metas k))) /\
  (forall k len, system_allocate sig w k len = Ok w' -> within w w' (marked (allocate_metas k))) /\
  (forall pool ptok vhr tacc mnt owner tokprog n acc,
     rewards_deposit e sig w pool ptok vhr tacc mnt owner tokprog n acc = Ok w' ->
     within w w' (marked (deposit_metas pool ptok vhr tacc mnt owner tokprog))) /\
  (forall pool ptok vhr tacc mnt owner tokprog n acc,
     rewards_withdraw e sig w pool ptok vhr tacc mnt owner tokprog n acc = Ok w' ->
     within w w' (marked (withdraw_metas pool ptok vhr tacc mnt owner tokprog))) /\
  (forall pool ptok vhr mnt owner acc,
     rewards_harvest e sig w pool ptok vhr mnt owner acc = Ok w' ->
     within w w' (marked (harvest_metas pool ptok vhr mnt owner))).
Proof.
  split; [|split; [|split; [|split; [|split; [|split]]]]].
  - intros until n. apply transfer_within; inl.
  - intros until n. intros H. unfold token_burn in H. opens H. injection H as <-.
    eapply within_trans; apply within_setd; inl.
  - intros k o H. unfold system_assign in H. destruct (_ =? _); [injection H as <-; apply within_same|].
    opens H. injection H as <-. apply within_seto. inl.
  - intros k len H. unfold system_allocate in H. opens H. injection H as <-. apply within_setd. inl.
  - intros until acc. intros H. unfold rewards_deposit in H. opens H.
    match goal with E : token_transfer _ _ _ _ _ _ _ _ = Ok _ |- _ => apply (transfer_within _ _ _ _ _ _ _ _ _ (marked (deposit_metas pool ptok vhr tacc mnt owner tokprog))) in E; [|inl..]; eapply within_trans; [|eapply within_trans; [exact E|]] end.
    + apply within_setd. inl.
    + eapply pay_within; [| |exact H]; inl.
  - intros until acc. intros H. unfold rewards_withdraw in H. opens H.
    match goal with E : token_transfer _ _ _ _ _ _ _ _ = Ok _ |- _ => apply (transfer_within _ _ _ _ _ _ _ _ _ (marked (withdraw_metas pool ptok vhr tacc mnt owner tokprog))) in E; [|inl..]; eapply within_trans; [|eapply within_trans; [exact E|]] end.
    + apply within_setd. inl.
    + eapply pay_within; [| |exact H]; inl.
  - intros until acc. intros H. unfold rewards_harvest in H. opens H. eapply within_trans; [apply (within_setd _ vhr); inl|].
    eapply pay_within; [| |exact H]; inl.
Qed.
Print Assumptions C90_callees_change_marked.

(** ** What the called programs look at *)
Definition same_named (l : list meta) (w1 w2 : world) : Prop := forall m, In m l -> get w1 (m_key m) = get w2 (m_key m).
Definition same_signed (l : list meta) (s1 s2 : pubkey -> bool) : Prop :=
  forall m, In m l -> m_sign m = true -> s1 (m_key m) = s2 (m_key m).
(** The same error, or success with the same result for the accounts named. *)
Definition alike (l : list meta) (r1 r2 : result world) : Prop :=
  match r1, r2 with
  | Ok w1, Ok w2 => same_named l w1 w2
  | Err x, Err y => x = y
  | Panic, Panic => True
  | _, _ => False
  end.
Definition sees (l : list meta) (f : (pubkey -> bool) -> world -> result world) : Prop :=
  forall s1 s2 w1 w2, same_signed l s1 s2 -> same_named l w1 w2 -> alike l (f s1 w1) (f s2 w2).
Lemma alike_bind {A} l (r : result A) f g : (forall x, alike l (f x) (g x)) -> alike l (bind r f) (bind r g).
Proof. intros H. destruct r; cbn; auto. Qed.
Lemma alike_next l r1 r2 f g : alike l r1 r2 -> (forall w1 w2, same_named l w1 w2 -> alike l (f w1) (g w2)) ->
  alike l (bind r1 f) (bind r2 g).
Proof. intros H K. destruct r1, r2; cbn in *; try contradiction; auto. Qed.
Lemma same_setd l w1 w2 k D : same_named l w1 w2 -> (exists m, In m l /\ m_key m = k) -> same_named l (setd w1 k D) (setd w2 k D).
Proof.
  intros H (m & I & <-) x X. unfold setd. rewrite !get_put. destruct (N.eqb_spec (m_key m) (m_key x)); [|auto]. now rewrite (H m I).
Qed.
Lemma same_setl l w1 w2 k n : same_named l w1 w2 -> (exists m, In m l /\ m_key m = k) -> same_named l (setl w1 k n) (setl w2 k n).
Proof.
  intros H (m & I & <-) x X. unfold setl. rewrite !get_put. destruct (N.eqb_spec (m_key m) (m_key x)); [|auto]. now rewrite (H m I).
Qed.
Lemma same_seto l w1 w2 k n : same_named l w1 w2 -> (exists m, In m l /\ m_key m = k) -> same_named l (seto w1 k n) (seto w2 k n).
Proof.
  intros H (m & I & <-) x X. unfold seto. rewrite !get_put. destruct (N.eqb_spec (m_key m) (m_key x)); [|auto]. now rewrite (H m I).
Qed.
Lemma same_get l w1 w2 k : same_named l w1 w2 -> (exists m, In m l /\ m_key m = k) -> get w1 k = get w2 k.
Proof. intros H (m & I & <-). auto. Qed.
Lemma authorise_same s1 s2 t auth n : s1 auth = s2 auth -> token_authorise s1 t auth n = token_authorise s2 t auth n.
Proof. intros H. unfold token_authorise. now rewrite H. Qed.
Lemma transfer_alike l e s1 s2 w1 w2 src mnt dst auth n : same_named l w1 w2 -> s1 auth = s2 auth ->
  (exists m, In m l /\ m_key m = src) -> (exists m, In m l /\ m_key m = mnt) -> (exists m, In m l /\ m_key m = dst) ->
  alike l (token_transfer e s1 w1 src mnt dst auth n) (token_transfer e s2 w2 src mnt dst auth n).
Proof.
  intros W G I1 I2 I3. unfold token_transfer, token_at, mint_at. rewrite (same_get _ _ _ _ W I1), (same_get _ _ _ _ W I2), (same_get _ _ _ _ W I3).
  do 6 (apply alike_bind; intros ?). rewrite (authorise_same s1 s2) by exact G. apply alike_bind. intros ?.
  destruct (src =? dst); [exact W|]. apply alike_bind. intros ?. cbn. now repeat apply same_setd.
Qed.
Lemma pay_alike l w1 w2 pool owner n : same_named l w1 w2 -> (exists m, In m l /\ m_key m = pool) -> (exists m, In m l /\ m_key m = owner) ->
  alike l (pool_pay w1 pool owner n) (pool_pay w2 pool owner n).
Proof.
  intros W I1 I2. unfold pool_pay. destruct (n =? 0); [exact W|]. rewrite (same_get _ _ _ _ W I1). apply alike_bind. intros ?. cbv zeta.
  assert (same_named l (setl w1 pool (lam (get w2 pool) - n)) (setl w2 pool (lam (get w2 pool) - n))) as W' by now apply same_setl.
  rewrite (same_get _ _ _ _ W' I2). apply alike_bind. intros ?. now apply same_setl.
Qed.
Lemma checked_same l e s1 s2 w1 w2 pool ptok vhr mnt owner : same_named l w1 w2 -> s1 owner = s2 owner ->
  (exists m, In m l /\ m_key m = pool) -> (exists m, In m l /\ m_key m = ptok) -> (exists m, In m l /\ m_key m = vhr) ->
  rewards_checked e s1 w1 pool ptok vhr mnt owner = rewards_checked e s2 w2 pool ptok vhr mnt owner.
Proof.
  intros W G I1 I2 I3. unfold rewards_checked, token_at.
  now rewrite (same_get _ _ _ _ W I1), (same_get _ _ _ _ W I2), (same_get _ _ _ _ W I3), G.
Qed.
Lemma named_in l k : In k (map m_key l) -> exists m, In m l /\ m_key m = k.
Proof. intros H. apply in_map_iff in H as (m & E & I). eauto. Qed.
Ltac is_named := apply named_in; cbn; clear; tauto.
(** The result of a call, and its effect on the accounts named, depend on those
    accounts and on the signatures of the accounts marked as signers only. *)
Theorem C90_callees_see_named e :
  (forall src mnt dst auth n, sees (transfer_checked_metas src mnt dst auth) (fun s w => token_transfer e s w src mnt dst auth n)) /\
  (forall acc mnt auth n, sees (burn_checked_metas acc mnt auth) (fun s w => token_burn e s w acc mnt auth n)) /\
  (forall k o, sees (assign_metas k) (fun s w => system_assign s w k o)) /\
  (forall k len, sees (allocate_metas k) (fun s w => system_allocate s w k len)) /\
  (forall pool ptok vhr tacc mnt owner tokprog n acc, sees (deposit_metas pool ptok vhr tacc mnt owner tokprog)
     (fun s w => rewards_deposit e s w pool ptok vhr tacc mnt owner tokprog n acc)) /\
  (forall pool ptok vhr tacc mnt owner tokprog n acc, sees (withdraw_metas pool ptok vhr tacc mnt owner tokprog)
     (fun s w => rewards_withdraw e s w pool ptok vhr tacc mnt owner tokprog n acc)) /\
  (forall pool ptok vhr mnt owner acc, sees (harvest_metas pool ptok vhr mnt owner)
     (fun s w => rewards_harvest e s w pool ptok vhr mnt owner acc)).
Proof.
  assert (forall l s1 s2 k, same_signed l s1 s2 -> (exists m, In m l /\ m_sign m = true /\ m_key m = k) -> s1 k = s2 k) as SG.
  { intros l s1 s2 k H (m & I & B & <-). auto. }
  split; [|split; [|split; [|split; [|split; [|split]]]]].
  - intros until n. intros s1 s2 w1 w2 G W. apply transfer_alike; [exact W| |is_named..].
    eapply SG; [exact G|]. eexists (sro auth). split; [cbn; clear; tauto|auto].
  - intros until n. intros s1 s2 w1 w2 G W. unfold token_burn, token_at, mint_at.
    rewrite (same_get _ _ _ acc W), (same_get _ _ _ mnt W) by is_named. do 5 (apply alike_bind; intros ?).
    rewrite (authorise_same s1 s2) by (eapply SG; [exact G|]; exists (sro auth); split; [cbn; clear; tauto|auto]).
    do 2 (apply alike_bind; intros ?). cbn [alike]. apply same_setd; [|is_named]. apply same_setd; [exact W|is_named].
  - intros k o s1 s2 w1 w2 G W. unfold system_assign. rewrite (same_get _ _ _ k W) by is_named.
    rewrite (SG _ _ _ k G) by (exists (srw k); split; [cbn; clear; tauto|auto]).
    destruct (_ =? o); [exact W|]. apply alike_bind. intros ?. cbn [alike]. apply same_seto; [exact W|is_named].
  - intros k len s1 s2 w1 w2 G W. unfold system_allocate. rewrite (same_get _ _ _ k W) by is_named.
    rewrite (SG _ _ _ k G) by (exists (srw k); split; [cbn; clear; tauto|auto]).
    apply alike_bind. intros ?. cbn [alike]. apply same_setd; [exact W|is_named].
  - intros until acc. intros s1 s2 w1 w2 G W. unfold rewards_deposit.
    assert (s1 owner = s2 owner) as GO by (eapply SG; [exact G|]; exists (srw owner); split; [cbn; clear; tauto|auto]).
    rewrite (checked_same _ e _ _ _ _ pool ptok vhr mnt owner W GO) by is_named. unfold pool_available, token_at.
    rewrite (same_get _ _ _ tacc W), (same_get _ _ _ pool W) by is_named. do 8 (apply alike_bind; intros ?). cbv zeta.
    apply alike_next; [apply transfer_alike; [apply same_setd; [exact W|is_named]|exact GO|is_named..]|].
    intros w3 w4 W'. apply pay_alike; [exact W'|is_named..].
  - intros until acc. intros s1 s2 w1 w2 G W. unfold rewards_withdraw.
    assert (s1 owner = s2 owner) as GO by (eapply SG; [exact G|]; exists (srw owner); split; [cbn; clear; tauto|auto]).
    rewrite (checked_same _ e _ _ _ _ pool ptok vhr mnt owner W GO) by is_named. unfold pool_available, token_at.
    rewrite (same_get _ _ _ tacc W), (same_get _ _ _ pool W), (same_get _ _ _ ptok W) by is_named. do 4 (apply alike_bind; intros ?). cbv zeta.
    do 4 (apply alike_bind; intros ?). cbv zeta.
    apply alike_next; [apply transfer_alike; [apply same_setd; [exact W|is_named]|reflexivity|is_named..]|].
    intros w3 w4 W'. apply pay_alike; [exact W'|is_named..].
  - intros until acc. intros s1 s2 w1 w2 G W. unfold rewards_harvest.
    assert (s1 owner = s2 owner) as GO by (eapply SG; [exact G|]; exists (srw owner); split; [cbn; clear; tauto|auto]).
    rewrite (checked_same _ e _ _ _ _ pool ptok vhr mnt owner W GO) by is_named. unfold pool_available.
    rewrite (same_get _ _ _ pool W) by is_named. do 3 (apply alike_bind; intros ?). cbv zeta.
    apply pay_alike; [apply same_setd; [exact W|is_named]|is_named..].
Qed.
Print Assumptions C90_callees_see_named.
(* Bob moves tokens into the vault: neither Carol's signature nor Carol's balance matters. *)
Definition sees_sig1 (k : pubkey) : bool := k =? bob.
Definition sees_sig2 (k : pubkey) : bool := (k =? bob) || (k =? carol).
Definition sees_w1 : world := at_end setup.
Definition sees_w2 : world := setl sees_w1 carol 7.
Example C90_callees_see_case : let l := transfer_checked_metas btok kmint kvtok bob in
  same_signed l sees_sig1 sees_sig2 /\ sees_sig1 carol <> sees_sig2 carol /\ same_named l sees_w1 sees_w2 /\
  lam (get sees_w1 carol) <> lam (get sees_w2 carol) /\
  match token_transfer denv sees_sig1 sees_w1 btok kmint kvtok bob 5 with Ok _ => True | _ => False end.
Proof.
  cbv zeta. split; [|split; [|split; [|split]]].
  - intros m I. cbn [In transfer_checked_metas] in I. destruct I as [<-|[<-|[<-|[<-|[]]]]]; reflexivity.
  - vm_compute. discriminate.
  - intros m I. cbn [In transfer_checked_metas] in I. destruct I as [<-|[<-|[<-|[<-|[]]]]]; unfold sees_w2, setl; rewrite get_put; reflexivity.
  - unfold sees_w2, setl. rewrite get_put. vm_compute. discriminate.
  - vm_compute. exact I.
Qed.

(** ** What the handlers insist on *)
Lemma authorise_signs sig t auth n t' : token_authorise sig t auth n = Ok t' -> sig auth = true.
Proof.
  unfold token_authorise. intros H. destruct (t_delegate t) as [d|].
  - destruct (d =? auth).
    + stepg H G. auto.
    + stepg H G. apply andb_true_iff in G. tauto.
  - stepg H G. apply andb_true_iff in G. tauto.
Qed.
Lemma deposit_tokprog e sig w pool ptok vhr tacc mnt owner tokprog n acc w' :
  rewards_deposit e sig w pool ptok vhr tacc mnt owner tokprog n acc = Ok w' -> tokprog = e_token e.
Proof.
  intros H. unfold rewards_deposit in H. opens H.
  match goal with G : require (tokprog =? e_token e) _ = Ok _ |- _ => apply require_ok in G; now apply N.eqb_eq end.
Qed.
Lemma withdraw_tokprog e sig w pool ptok vhr tacc mnt owner tokprog n acc w' :
  rewards_withdraw e sig w pool ptok vhr tacc mnt owner tokprog n acc = Ok w' -> tokprog = e_token e.
Proof.
  intros H. unfold rewards_withdraw in H. opens H.
  match goal with G : require (tokprog =? e_token e) _ = Ok _ |- _ => apply require_ok in G; now apply N.eqb_eq end.
Qed.
Lemma stake_tokprog e cx a b n w w' : stake_tokens e cx a b n w = Ok w' -> st_tokprog a = e_token e.
Proof.
  intros H. unfold stake_tokens in H. opens H.
  destruct (match dat (get _ (st_stake a)) with DVal v => _ | DSol s => _ | _ => _ end) as [l m] in H. opens H.
  now apply deposit_tokprog in H.
Qed.
Lemma unstake_tokprog e cx a n w w' : unstake_tokens e cx a n w = Ok w' -> un_tokprog a = e_token e.
Proof.
  intros H. unfold unstake_tokens in H. opens H.
  match type of H with context [let '(_, _) := ?x in _] => destruct x as [[p l] m] end. opens H.
  match goal with G : rewards_withdraw _ _ _ _ _ _ _ _ _ _ _ _ = Ok _ |- _ => now apply withdraw_tokprog in G end.
Qed.

(** ** C90 *)
Ltac among := cbn; clear; tauto.
Ltac each I := repeat (destruct I as [I|I]; [|]); [..|destruct I].
(* The accounts of a call are accounts of the instruction, and the ones it marks
   writable are declared writable. *)
Ltac basics W :=
  constructor; cbn [i_program i_infos i_metas i_seeds];
  [ | intros k I; cbn [In] in I; clear - I; cbn; tauto
    | intros mt I; cbn [In] in I; each I; subst mt; cbn; clear; tauto
    | intros mt I WM; cbn [In] in I; each I; subst mt; try discriminate WM; apply W; cbn; clear; tauto
    | intros mt I SM; cbn [In] in I; each I; subst mt; try discriminate SM ].
Theorem C90_calls_permitted e cx ks i c w w' v :
  accounts_of e ks i = Ok c -> handler e cx c w = Ok w' ->
  (forall j p, In (j, p) (named e i) -> key ks j = p) ->
  (forall k, In k (may_write i ks) -> writable cx k = true) ->
  In v (calls e ks i w) -> permitted cx ks v.
Proof.
  intros A H N W V. pose proof (handler_did _ _ _ _ _ H) as D. destruct i; open_accounts ks A; cbn [calls] in V;
    try contradiction V; unfold stake_calls, key in V; unfold key in N; cbn [nth named app] in V, N;
    unfold may_write in W; cbn [declared at_flag writes app] in W.
  - inversion D; subst. match goal with X : config_created _ _ _ _ _ _ _ _ _ _ _ |- _ => destruct X end.
    cbn in Hvp. destruct V as [<-|[]]. unfold assign_metas. rewrite <- Hvp. basics W.
    + rewrite <- (N _ _ (or_introl eq_refl)). among.
    + right. reflexivity.
  - inversion D; subst. match goal with X : val_created _ _ _ _ _ |- _ => destruct X end.
    cbn in Hk. unfold allocate_metas, assign_metas in V. rewrite <- Hk in V. destruct V as [<-|[<-|[]]]; basics W;
      (rewrite <- (N _ _ (or_introl eq_refl)); among) || (right; reflexivity).
  - inversion D; subst. match goal with X : staked_any _ _ _ _ _ _ |- _ => destruct X as [? _ _ _ _ []] end.
    cbn in Hvp.
    cbn [handler] in H. unfold validator_stake_tokens in H. opens H. apply stake_tokprog in H as T. cbn in T.
    unfold transfer_checked_metas, deposit_metas in V. rewrite <- Hvp in V. destruct V as [<-|[<-|[]]]; basics W.
    + rewrite <- T. among.
    + left. match goal with X : transferred _ (signed cx) _ _ _ _ _ _ _ |- _ => destruct X end. apply authorise_signs in Hau. exact Hau.
    + rewrite <- (N _ _ (or_introl eq_refl)). among.
    + right. reflexivity.
  - inversion D; subst. match goal with X : held_ok _ _ _ _ _ |- _ => destruct X end. cbn in Hva, Hc0.
    unfold harvest_metas, seeds_of in V. rewrite Hc0, Hva in V. destruct V as [<-|[]]. basics W.
    + rewrite <- (N _ _ (or_introl eq_refl)). among.
    + right. reflexivity.
  - inversion D; subst. match goal with X : slashed_any _ _ _ _ _ _ |- _ => destruct X as [? _ _ _ _ []] end. cbn in Hva, Hc0.
    destruct (del_of _) as [dd| |] in V; try contradiction V. destruct (staked dd =? 0); [contradiction V|].
    unfold burn_checked_metas, seeds_of in V. rewrite Hc0, Hva in V. destruct V as [<-|[]]. basics W.
    + among.
    + right. reflexivity.
  - inversion D; subst. match goal with X : sol_created _ _ _ _ _ |- _ => destruct X end.
    cbn in Hk. unfold allocate_metas, assign_metas, view_metas in V. rewrite <- Hk in V. destruct V as [<-|[<-|[<-|[]]]]; basics W;
      (among || (rewrite <- (N _ _ (or_introl eq_refl)); among) || (right; reflexivity)).
  - inversion D; subst. match goal with X : staked_any _ _ _ _ _ _ |- _ => destruct X as [? _ _ _ _ []] end.
    cbn in Hvp.
    cbn [handler] in H. unfold sol_staker_stake_tokens in H. opens H. apply stake_tokprog in H as T. cbn in T.
    unfold transfer_checked_metas, deposit_metas in V. rewrite <- Hvp in V. destruct V as [<-|[<-|[]]]; basics W.
    + rewrite <- T. among.
    + left. match goal with X : transferred _ (signed cx) _ _ _ _ _ _ _ |- _ => destruct X end. apply authorise_signs in Hau. exact Hau.
    + rewrite <- (N _ _ (or_introl eq_refl)). among.
    + right. reflexivity.
  - destruct V as [<-|[]]. unfold view_metas. basics W. among.
  - inversion D; subst. match goal with X : unstaked_ok _ _ _ _ _ _ |- _ => destruct X end. cbn in Hvp.
    cbn [handler] in H. apply unstake_tokprog in H as T. cbn in T.
    unfold transfer_checked_metas, withdraw_metas, deposit_metas in V. rewrite <- Hvp in V. destruct V as [<-|[<-|[]]]; basics W.
    + rewrite <- (N _ _ (or_introl eq_refl)). among.
    + right. reflexivity.
    + rewrite <- T. among.
    + right. reflexivity.
  - inversion D; subst. match goal with X : slashed_any _ _ _ _ _ _ |- _ => destruct X as [? _ _ _ _ []] end. cbn in Hva, Hc0.
    destruct (del_of _) as [dd| |] in V; try contradiction V. destruct (staked dd =? 0); [contradiction V|].
    unfold burn_checked_metas, seeds_of in V. rewrite Hc0, Hva in V. destruct V as [<-|[]]. basics W.
    + among.
    + right. reflexivity.
Qed.
Print Assumptions C90_calls_permitted.

(** With the declared accounts writable and the named programs in their places, an
    instruction goes through exactly if the handler and the runtime accept it. *)
Theorem C90_declared_executes e cx ks i c w w' :
  accounts_of e ks i = Ok c ->
  (forall j p, In (j, p) (named e i) -> key ks j = p) ->
  (forall k, In k (may_write i ks) -> writable cx k = true) ->
  executes e cx ks i w w' <-> run e cx c w = Ok w'.
Proof.
  intros A N W. split.
  - intros (c' & A' & R & _). congruence.
  - intros R. exists c. split; [exact A|]. split; [exact R|]. intros v V.
    apply run_ok in R as (H & _). eapply C90_calls_permitted; eauto.
Qed.
Print Assumptions C90_declared_executes.

(* Unstaking as declared makes two calls and goes through. *)
Example C90_case :
  length (calls denv unstake_keys (IUnstakeTokens 400) (at_end with_reward)) = 2%nat /\
  exists w', executes denv (as_declared (IUnstakeTokens 400) unstake_keys [] 9 0) unstake_keys (IUnstakeTokens 400)
               (at_end with_reward) w'.
Proof.
  split; [reflexivity|]. destruct C48_case as (A & (w' & R & _) & _). exists w'.
  refine (proj2 (C90_declared_executes denv _ _ _ unstake_call _ w' A _ _) R).
  - intros j p [[= <- <-]|[]]. reflexivity.
  - intros k I. unfold writable. apply existsb_exists. exists k. split; [|apply N.eqb_refl].
    unfold as_declared. cbn [c_writable]. apply in_or_app. now left.
Qed.
(* Without the rewards program among the accounts, or with the vault passed
   read-only, the handler has nothing to object to but the runtime refuses the
   calls.  (Over the instruction the vault does not change: its tokens come from
   the pool and go to the destination.) *)
Definition no_program_keys : list pubkey :=
  [kcfg; kpool; kptok; ksol1; bob; kvtok; kpda; kvhr; kmint; btok; e_token denv; carol].
Example C90_program_case :
  (exists w', run denv (as_declared (IUnstakeTokens 400) no_program_keys [] 9 0) unstake_call (at_end with_reward) = Ok w') /\
  forall w', ~ executes denv (as_declared (IUnstakeTokens 400) no_program_keys [] 9 0) no_program_keys (IUnstakeTokens 400)
                 (at_end with_reward) w'.
Proof.
  split.
  - eexists. apply (at_end_run with_reward). vm_compute. reflexivity.
  - intros w' (c & _ & _ & P). destruct (P _ (or_introl eq_refl)) as [I _ _ _ _]. cbn [i_program] in I. vm_compute in I.
    repeat (destruct I as [I|I]; [discriminate I|]). exact I.
Qed.
Definition shut_vault : ctx :=
  Ctx [bob] [kcfg; kpool; kptok; ksol1; bob; kpda; kvhr; btok] 9 None 0.
Example C90_readonly_case :
  (exists w', run denv shut_vault unstake_call (at_end with_reward) = Ok w') /\
  forall w', ~ executes denv shut_vault unstake_keys (IUnstakeTokens 400) (at_end with_reward) w'.
Proof.
  split.
  - eexists. apply (at_end_run with_reward). vm_compute. reflexivity.
  - intros w' (c & _ & _ & P). destruct (P _ (or_introl eq_refl)) as [_ _ _ WR _].
    assert (writable shut_vault kvtok = true) as F; [|vm_compute in F; discriminate F].
    apply (WR (rw kvtok)); [right; right; right; left; reflexivity|reflexivity].
Qed.
