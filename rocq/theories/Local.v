(** Every handler reads and writes only accounts passed to it. *)
From Verif Require Import Base Types Layout Instr Math External Processor Runtime History Spec
  WorldLemmas Effects Handlers Declared Touches SpecLocal.

Lemma alike_bind {A B} (R : A -> A -> Prop) (S' : B -> B -> Prop) r1 r2 f g :
  alike R r1 r2 -> (forall a b, R a b -> alike S' (f a) (g b)) -> alike S' (bind r1 f) (bind r2 g).
Proof. destruct r1, r2; simpl; auto; contradiction. Qed.
Lemma alike_bind_eq {A B} (S' : B -> B -> Prop) (r1 r2 : result A) f g :
  r1 = r2 -> (forall a, r2 = Ok a -> alike S' (f a) (g a)) -> alike S' (bind r1 f) (bind r2 g).
Proof. intros ->. destruct r2; simpl; auto. Qed.
Lemma agree_put ks w1 w2 k a : agree ks w1 w2 -> agree ks (put w1 k a) (put w2 k a).
Proof. intros H x I. rewrite !get_put. destruct (k =? x); auto. Qed.
Lemma agree_setl ks w1 w2 k n : agree ks w1 w2 -> In k ks -> agree ks (setl w1 k n) (setl w2 k n).
Proof. intros H I. unfold setl. rewrite (H k I). now apply agree_put. Qed.
Lemma agree_setd ks w1 w2 k n : agree ks w1 w2 -> In k ks -> agree ks (setd w1 k n) (setd w2 k n).
Proof. intros H I. unfold setd. rewrite (H k I). now apply agree_put. Qed.
Lemma agree_seto ks w1 w2 k n : agree ks w1 w2 -> In k ks -> agree ks (seto w1 k n) (seto w2 k n).
Proof. intros H I. unfold seto. rewrite (H k I). now apply agree_put. Qed.
Lemma agree_put_del ks w1 w2 k x : agree ks w1 w2 -> In k ks -> agree ks (put_del w1 k x) (put_del w2 k x).
Proof. intros H I. unfold put_del. rewrite (H k I). now apply agree_setd. Qed.

Ltac inks := first [assumption | match goal with I : incl _ ?ks |- In _ ?ks => apply I; cbn [In opt_list app]; tauto end].
Ltac agr := repeat match goal with
  | H : agree ?ks ?w1 ?w2 |- context[get ?w1 ?k] => rewrite (H k) by inks
  end.
Ltac agw := repeat first
  [ assumption
  | apply agree_setl; [|inks] | apply agree_setd; [|inks] | apply agree_seto; [|inks]
  | apply agree_put_del; [|inks] ].
(* one step of two runs side by side *)
Ltac lstep lem :=
  cbv beta;
  match goal with
  | |- alike _ (let w := ?a in @?f w) (let w' := ?b in @?g w') =>
      match type of a with
      | gmap N account =>
          let H := fresh "A" in
          match goal with K : agree ?ks _ _ |- _ =>
            assert (H : agree ks a b) by (agr; agw) end;
          match goal with |- alike ?R _ _ => change (alike R (f a) (g b)) end;
          revert H; generalize a, b; intros ? ? H
      | _ => match goal with |- alike ?R _ _ => change (alike R (f a) (g b)) end
      end
  | |- alike _ (bind _ _) (bind _ _) =>
      first [ eapply alike_bind; [lem|intros ? ? ?]
            | eapply alike_bind_eq; [agr; reflexivity|intros ? ?] ]
  | |- alike _ (Ok ?a) (Ok ?b) => cbn [alike]; agr; agw
  | |- alike _ (if _ then _ else _) (if _ then _ else _) =>
      agr; match goal with |- alike _ (if ?c then _ else _) _ => destruct c end
  | |- alike _ (Err _) (Err _) => reflexivity
  | |- alike _ Panic Panic => exact I
  end.



Section local.
Context (e : env) (ks : list pubkey).
Notation al := (alike (agree ks)).

Lemma token_at_local w1 w2 k : agree ks w1 w2 -> In k ks -> token_at e w1 k = token_at e w2 k.
Proof. intros H I. unfold token_at. now rewrite (H k I). Qed.
Lemma mint_at_local w1 w2 k : agree ks w1 w2 -> In k ks -> mint_at e w1 k = mint_at e w2 k.
Proof. intros H I. unfold mint_at. now rewrite (H k I). Qed.
Lemma load_config_local w1 w2 k : agree ks w1 w2 -> In k ks -> load_config e w1 k = load_config e w2 k.
Proof. intros H I. unfold load_config. now rewrite (H k I). Qed.
Lemma load_val_local w1 w2 k c : agree ks w1 w2 -> In k ks -> load_val e w1 k c = load_val e w2 k c.
Proof. intros H I. unfold load_val. now rewrite (H k I). Qed.
Lemma load_sol_local w1 w2 k c : agree ks w1 w2 -> In k ks -> load_sol e w1 k c = load_sol e w2 k c.
Proof. intros H I. unfold load_sol. now rewrite (H k I). Qed.
Lemma load_any_local w1 w2 k c : agree ks w1 w2 -> In k ks -> load_any e w1 k c = load_any e w2 k c.
Proof. intros H I. unfold load_any. now rewrite (H k I). Qed.
Lemma check_duna_local w1 w2 s k h : agree ks w1 w2 -> In k ks -> check_duna e w1 s k h = check_duna e w2 s k h.
Proof. intros H I. unfold check_duna. now rewrite (H k I). Qed.
Lemma rewards_checked_local sig w1 w2 pool ptok vhr mnt owner : agree ks w1 w2 ->
  In pool ks -> In ptok ks -> In vhr ks ->
  rewards_checked e sig w1 pool ptok vhr mnt owner = rewards_checked e sig w2 pool ptok vhr mnt owner.
Proof.
  intros H I1 I2 I3. unfold rewards_checked.
  now rewrite (H pool I1), (H vhr I3), (token_at_local _ _ _ H I2).
Qed.
Lemma lam_sum_local w1 w2 l : agree ks w1 w2 -> incl l ks -> lam_sum w1 l = lam_sum w2 l.
Proof.
  intros H I. unfold lam_sum.
  assert (incl (nodup N.eq_dec l) ks) as J by (intros x X; apply I; now apply nodup_In in X).
  clear I. induction (nodup N.eq_dec l) as [|k l' IH]; simpl; auto.
  rewrite (H k) by (apply J; simpl; auto). rewrite IH; auto. intros x X. apply J. simpl. auto.
Qed.
Lemma cpi_check_local w0 w0' w w' held l : agree ks w0 w0' -> agree ks w w' -> incl l ks ->
  cpi_check w0 w held l = cpi_check w0' w' held l.
Proof. intros H0 H I. unfold cpi_check. now rewrite (lam_sum_local _ _ _ H I), (lam_sum_local _ _ _ H0 I). Qed.

Ltac rd := first [eapply token_at_local | eapply mint_at_local | eapply load_config_local | eapply load_val_local
  | eapply load_sol_local | eapply load_any_local | eapply check_duna_local | eapply rewards_checked_local];
  [eassumption|inks..].
Ltac ls := first
  [ progress cbv beta
  | match goal with |- alike _ (bind _ _) (bind _ _) => eapply alike_bind_eq; [rd|intros ? ?] end
  | match goal with |- alike _ (bind (cpi_check _ _ _ _) _) _ =>
      eapply alike_bind_eq; [eapply cpi_check_local; [eassumption|eassumption|intros ? ?; inks]|intros ? ?] end
  | lstep fail ].

Lemma token_transfer_local sig w1 w2 src mnt dst auth n : agree ks w1 w2 ->
  In src ks -> In mnt ks -> In dst ks ->
  al (token_transfer e sig w1 src mnt dst auth n) (token_transfer e sig w2 src mnt dst auth n).
Proof. intros H I1 I2 I3. cbv delta [token_transfer]; cbv beta. repeat ls. Qed.
Lemma token_burn_local sig w1 w2 src mnt auth n : agree ks w1 w2 -> In src ks -> In mnt ks ->
  al (token_burn e sig w1 src mnt auth n) (token_burn e sig w2 src mnt auth n).
Proof. intros H I1 I2. cbv delta [token_burn]; cbv beta. repeat ls. Qed.
Lemma system_assign_local sig w1 w2 k o : agree ks w1 w2 -> In k ks ->
  al (system_assign sig w1 k o) (system_assign sig w2 k o).
Proof. intros H I1. cbv delta [system_assign]; cbv beta. repeat ls. Qed.
Lemma system_allocate_local sig w1 w2 k o : agree ks w1 w2 -> In k ks ->
  al (system_allocate sig w1 k o) (system_allocate sig w2 k o).
Proof. intros H I1. cbv delta [system_allocate]; cbv beta. repeat ls. Qed.
Lemma pool_pay_local w1 w2 pool owner r : agree ks w1 w2 -> In pool ks -> In owner ks ->
  al (pool_pay w1 pool owner r) (pool_pay w2 pool owner r).
Proof. intros H I1 I2. cbv delta [pool_pay]; cbv beta. repeat ls. Qed.
Lemma rewards_harvest_local sig w1 w2 pool ptok vhr mnt owner acc : agree ks w1 w2 ->
  In pool ks -> In ptok ks -> In vhr ks -> In owner ks ->
  al (rewards_harvest e sig w1 pool ptok vhr mnt owner acc) (rewards_harvest e sig w2 pool ptok vhr mnt owner acc).
Proof.
  intros H I1 I2 I3 I4. cbv delta [rewards_harvest pool_available]; cbv beta. repeat ls.
  apply pool_pay_local; auto.
Qed.
Lemma rewards_deposit_local sig w1 w2 pool ptok vhr tacc mnt owner tp n acc : agree ks w1 w2 ->
  In pool ks -> In ptok ks -> In vhr ks -> In owner ks -> In tacc ks -> In mnt ks ->
  al (rewards_deposit e sig w1 pool ptok vhr tacc mnt owner tp n acc)
     (rewards_deposit e sig w2 pool ptok vhr tacc mnt owner tp n acc).
Proof.
  intros H I1 I2 I3 I4 I5 I6. cbv delta [rewards_deposit pool_available]; cbv beta. repeat ls.
  eapply alike_bind; [now apply token_transfer_local|]. intros. apply pool_pay_local; auto.
Qed.
Lemma rewards_withdraw_local sig w1 w2 pool ptok vhr tacc mnt owner tp n acc : agree ks w1 w2 ->
  In pool ks -> In ptok ks -> In vhr ks -> In owner ks -> In tacc ks -> In mnt ks ->
  al (rewards_withdraw e sig w1 pool ptok vhr tacc mnt owner tp n acc)
     (rewards_withdraw e sig w2 pool ptok vhr tacc mnt owner tp n acc).
Proof.
  intros H I1 I2 I3 I4 I5 I6. cbv delta [rewards_withdraw pool_available]; cbv beta. agr. repeat ls.
  eapply alike_bind; [now apply token_transfer_local|]. intros. apply pool_pay_local; auto.
Qed.
Lemma sync_config_local w1 w2 ck : agree ks w1 w2 -> In ck ks ->
  al (sync_config_lamports w1 ck) (sync_config_lamports w2 ck).
Proof. intros H I1. cbv delta [sync_config_lamports]; cbv beta. repeat ls. Qed.
Lemma harvest_local w1 w2 ck vhr auth va sk kp : agree ks w1 w2 ->
  In ck ks -> In vhr ks -> In auth ks -> In sk ks -> incl (opt_list kp) ks ->
  al (harvest e w1 ck vhr auth va sk kp) (harvest e w2 ck vhr auth va sk kp).
Proof.
  intros H I1 I2 I3 I4 I5. cbv delta [harvest]; cbv beta. do 2 ls.
  eapply alike_bind; [now apply sync_config_local|]. intros. repeat ls.
  eapply (alike_bind (fun p q => agree ks (fst p) (fst q) /\ snd p = snd q)).
  - destruct kp as [k|]; [|simpl; auto].
    assert (In k ks) by (apply I5; simpl; auto).
    repeat match goal with |- alike _ (Ok _) _ => fail 1 | _ => ls end. simpl. split; [agw|auto].
  - intros [x p] [y q] [G G']. simpl in G, G'. subst q. repeat ls.
Qed.
Lemma sync_effective_local w1 w2 ck sk l lm : agree ks w1 w2 -> In ck ks -> In sk ks ->
  al (sync_effective w1 ck sk l lm) (sync_effective w2 ck sk l lm).
Proof. intros H I1 I2. cbv delta [sync_effective]; cbv beta. repeat ls. Qed.
Lemma transfer_excess_local w1 w2 s d : agree ks w1 w2 -> In s ks -> In d ks ->
  al (transfer_excess e w1 s d) (transfer_excess e w2 s d).
Proof. intros H I1 I2. cbv delta [transfer_excess]; cbv beta. agr. repeat ls. Qed.
Lemma resync_local w1 w2 ck vhr vs vk vauth f : agree ks w1 w2 ->
  In ck ks -> In vhr ks -> In vk ks -> In vauth ks ->
  al (resync_validator e w1 ck vhr vs vk vauth f) (resync_validator e w2 ck vhr vs vk vauth f).
Proof.
  intros H I1 I2 I3 I4. cbv delta [resync_validator]; cbv beta.
  eapply alike_bind; [apply harvest_local; auto; intros ? []|]. intros. repeat ls.
  apply sync_effective_local; auto.
Qed.


Lemma initialize_config_local cx a x1 x2 x3 x4 x5 x6 w1 w2 : agree ks w1 w2 ->
  incl [ic_config a; ic_mint a; ic_vault_pda a; ic_vault a; ic_vhr a] ks ->
  al (initialize_config e cx a x1 x2 x3 x4 x5 x6 w1) (initialize_config e cx a x1 x2 x3 x4 x5 x6 w2).
Proof.
  intros H I. cbv delta [initialize_config]; cbv beta. repeat ls.
  eapply alike_bind; [apply system_assign_local; [assumption|inks]|]. intros. repeat ls.
Qed.
Lemma init_val_local cx a w1 w2 : agree ks w1 w2 ->
  incl [iv_config a; iv_duna a; iv_stake a; iv_vote a] ks ->
  al (initialize_validator_stake e cx a w1) (initialize_validator_stake e cx a w2).
Proof.
  intros H I. cbv delta [initialize_validator_stake]; cbv beta. repeat ls.
  eapply alike_bind; [apply system_allocate_local; [assumption|inks]|]. intros.
  eapply alike_bind; [apply system_assign_local; [assumption|inks]|]. intros. repeat ls.
Qed.
Lemma init_sol_local cx a w1 w2 : agree ks w1 w2 ->
  incl [is_config a; is_duna a; is_stake a; is_override a; is_val a] ks ->
  al (initialize_sol_staker_stake e cx a w1) (initialize_sol_staker_stake e cx a w2).
Proof.
  intros H I. cbv delta [initialize_sol_staker_stake]; cbv beta. agr. repeat ls.
  eapply alike_bind; [apply system_allocate_local; [assumption|inks]|]. intros.
  eapply alike_bind; [apply system_assign_local; [assumption|inks]|]. intros. repeat ls.
Qed.
Lemma set_authority_local cx a t w1 w2 : agree ks w1 w2 -> incl [sa_account a] ks ->
  al (set_authority_ix e cx a t w1) (set_authority_ix e cx a t w2).
Proof. intros H I. cbv delta [set_authority_ix]; cbv beta. repeat ls. Qed.
Lemma update_config_local cx a t w1 w2 : agree ks w1 w2 -> incl [uc_config a] ks ->
  al (update_config e cx a t w1) (update_config e cx a t w2).
Proof. intros H I. cbv delta [update_config]; cbv beta. repeat ls. Qed.
Lemma stake_tokens_local cx a b n w1 w2 : agree ks w1 w2 ->
  incl [st_config a; st_pool a; st_ptok a; st_stake a; st_authority a; st_source a; st_source_auth a;
        st_mint a; st_vault_pda a; st_vault a; st_vhr a; st_tokprog a] ks ->
  al (stake_tokens e cx a b n w1) (stake_tokens e cx a b n w2).
Proof.
  intros H I. cbv delta [stake_tokens]; cbv beta. repeat ls.
  eapply alike_bind; [apply harvest_local; try assumption; try inks; intros ? []|]. intros. repeat ls.
  agr. destruct (match dat _ with DVal _ => _ | _ => _ end) as [l lm].
  eapply alike_bind; [apply sync_effective_local; try assumption; inks|]. intros. repeat ls.
  eapply alike_bind_eq; [eapply cpi_check_local; [eassumption|eassumption|]; clear - I; intros ? ?; apply I; simpl in *; tauto|intros ? ?].
  eapply alike_bind; [apply token_transfer_local; try assumption; inks|]. intros. repeat ls.
  eapply alike_bind_eq; [eapply cpi_check_local; [eassumption|eassumption|]; clear - I; intros ? ?; apply I; simpl in *; tauto|intros ? ?].
  apply rewards_deposit_local; try assumption; inks.
Qed.
Lemma harvest_val_local cx a w1 w2 : agree ks w1 w2 ->
  incl [hv_config a; hv_vhr a; hv_stake a; hv_authority a] ks ->
  al (harvest_validator_rewards e cx a w1) (harvest_validator_rewards e cx a w2).
Proof.
  intros H I. cbv delta [harvest_validator_rewards]; cbv beta. repeat ls.
  apply harvest_local; try assumption; try inks; intros ? [].
Qed.
Lemma leave_previous_local w1 w2 a vs s : agree ks w1 w2 ->
  incl [hs_config a; hs_vhr a; hs_prev a; hs_prev_auth a] ks ->
  al (leave_previous e w1 a vs s) (leave_previous e w2 a vs s).
Proof.
  intros H I. cbv delta [leave_previous]; cbv beta. repeat ls.
  apply resync_local; try assumption; inks.
Qed.
Lemma join_current_local w1 w2 a vs v n : agree ks w1 w2 ->
  incl [hs_config a; hs_vhr a; hs_cur a; hs_cur_auth a] ks ->
  alike (fun p q => agree ks (fst (fst p)) (fst (fst q)) /\ snd (fst p) = snd (fst q) /\ snd p = snd q)
    (join_current e w1 a vs v n) (join_current e w2 a vs v n).
Proof.
  intros H I. cbv delta [join_current]; cbv beta.
  destruct (negb (v =? 0)); [|simpl; auto].
  eapply alike_bind_eq; [reflexivity|intros _ _]. agr. destruct (own _ =? _); [|simpl; auto].
  eapply alike_bind_eq; [agr; reflexivity|intros ? ?].
  eapply alike_bind; [apply resync_local; try assumption; inks|]. intros. simpl. auto.
Qed.
Lemma harvest_sol_local cx a w1 w2 : agree ks w1 w2 ->
  incl ([hs_config a; hs_vhr a; hs_stake a; hs_authority a; hs_prev a; hs_prev_auth a; hs_cur a;
        hs_cur_auth a] ++ opt_list (hs_keeper a)) ks ->
  al (harvest_sol_staker_rewards e cx a w1) (harvest_sol_staker_rewards e cx a w2).
Proof.
  intros H I. cbv delta [harvest_sol_staker_rewards]; cbv beta. repeat ls.
  eapply alike_bind.
  { apply harvest_local; try assumption; try inks.
    match goal with K : (if _ then _ else _) = Ok ?k |- incl (opt_list ?k) _ => revert K end.
    destruct (_ || _); [destruct (hs_keeper a) as [k|] eqn:E|]; intros [= <-]; [|intros ? []].
    intros ? X. apply I. apply in_or_app. right. exact X. }
  intros. repeat ls.
  eapply alike_bind; [apply leave_previous_local; [assumption|]; clear - I; intros ? ?; apply I; simpl in *; tauto|]. intros.
  eapply alike_bind; [apply join_current_local; [assumption|]; clear - I; intros ? ?; apply I; simpl in *; tauto|].
  intros [[x1 x2] x3] [[y1 y2] y3] (A1 & A2 & A3). simpl in A1, A2, A3. subst y2 y3. repeat ls.
  apply sync_effective_local; try assumption; inks.
Qed.
Lemma unstake_local cx a n w1 w2 : agree ks w1 w2 ->
  incl [un_config a; un_pool a; un_ptok a; un_stake a; un_authority a; un_vault a; un_vault_pda a;
        un_vhr a; un_mint a; un_dest a; un_tokprog a] ks ->
  al (unstake_tokens e cx a n w1) (unstake_tokens e cx a n w2).
Proof.
  intros H I. cbv delta [unstake_tokens]; cbv beta. repeat ls.
  match goal with |- alike _ (match ?p with pair _ _ => _ end) _ => destruct p as [[pda l] lm] end. repeat ls.
  eapply alike_bind; [apply harvest_local; try assumption; try inks; intros ? []|]. intros. repeat ls.
  eapply alike_bind; [apply sync_effective_local; try assumption; inks|]. intros. repeat ls.
  eapply alike_bind_eq; [eapply cpi_check_local; [eassumption|eassumption|]; clear - I; intros ? ?; apply I; simpl in *; tauto|intros ? ?].
  eapply alike_bind; [apply rewards_withdraw_local; try assumption; inks|]. intros. repeat ls.
  eapply alike_bind_eq; [eapply cpi_check_local; [eassumption|eassumption|]; clear - I; intros ? ?; apply I; simpl in *; tauto|intros ? ?].
  apply token_transfer_local; try assumption; inks.
Qed.
Lemma slash_local cx a c l lm n w1 w2 : agree ks w1 w2 ->
  incl [sl_config a; sl_stake a; sl_authority a; sl_vault a; sl_vhr a; sl_vault_auth a; sl_mint a] ks ->
  al (slash_stake e cx a c l lm n w1) (slash_stake e cx a c l lm n w2).
Proof.
  intros H I. cbv delta [slash_stake]; cbv beta. repeat ls.
  eapply alike_bind; [apply harvest_local; try assumption; try inks; intros ? []|]. intros. repeat ls.
  eapply (alike_bind (agree ks)).
  - cbv delta [process_slash_for_delegation]; cbv beta. repeat ls.
    + eapply alike_bind_eq; [eapply cpi_check_local; [eassumption|eassumption|]; clear - I; intros ? ?; apply I; simpl in *; tauto|intros ? ?].
      apply token_burn_local; try assumption; inks.
  - intros. apply sync_effective_local; try assumption; inks.
Qed.
Lemma move_local cx a n w1 w2 : agree ks w1 w2 ->
  incl [mv_config a; mv_vhr a; mv_authority a; mv_source a; mv_dest a] ks ->
  al (sol_staker_move_tokens e cx a n w1) (sol_staker_move_tokens e cx a n w2).
Proof.
  intros H I. cbv delta [sol_staker_move_tokens]; cbv beta. repeat ls.
  eapply alike_bind; [apply harvest_local; try assumption; try inks; intros ? []|]. intros. repeat ls.
  eapply alike_bind; [apply harvest_local; try assumption; try inks; intros ? []|]. intros. repeat ls.
  eapply alike_bind; [apply sync_effective_local; try assumption; inks|]. intros.
  apply sync_effective_local; try assumption; inks.
Qed.
Lemma override_local cx a n w1 w2 : agree ks w1 w2 ->
  incl [ov_config a; ov_stake a; ov_stake_auth a; ov_vhr a] ks ->
  al (validator_override e cx a n w1) (validator_override e cx a n w2).
Proof.
  intros H I. cbv delta [validator_override]; cbv beta. repeat ls.
  eapply alike_bind; [apply harvest_local; try assumption; try inks; intros ? []|]. intros. repeat ls.
  apply sync_effective_local; try assumption; inks.
Qed.
Lemma sync_authority_local cx a w1 w2 : agree ks w1 w2 ->
  incl [sy_config a; sy_stake a; sy_vote a] ks ->
  al (validator_sync_authority e cx a w1) (validator_sync_authority e cx a w2).
Proof. intros H I. cbv delta [validator_sync_authority]; cbv beta. repeat ls. Qed.
Lemma harvest_holder_local cx a w1 w2 : agree ks w1 w2 ->
  incl [hh_config a; hh_pool a; hh_ptok a; hh_vault a; hh_vhr a; hh_vault_pda a] ks ->
  al (harvest_holder_rewards e cx a w1) (harvest_holder_rewards e cx a w2).
Proof.
  intros H I. cbv delta [harvest_holder_rewards]; cbv beta. repeat ls.
  eapply alike_bind; [apply sync_config_local; try assumption; inks|]. intros.
  eapply alike_bind; [apply rewards_harvest_local; try assumption; inks|]. intros.
  eapply alike_bind; [apply transfer_excess_local; try assumption; inks|]. intros. repeat ls.
Qed.
End local.

(** ** All handlers *)

(** The accounts a call names. *)
Definition names (c : call) : list pubkey :=
  match c with
  | CInitializeConfig a _ _ _ _ _ _ => [ic_config a; ic_mint a; ic_vault_pda a; ic_vault a; ic_vhr a]
  | CInitializeValidatorStake a => [iv_config a; iv_duna a; iv_stake a; iv_vote a]
  | CValidatorStakeTokens a _ | CSolStakerStakeTokens a _ =>
      [st_config a; st_pool a; st_ptok a; st_stake a; st_authority a; st_source a; st_source_auth a;
       st_mint a; st_vault_pda a; st_vault a; st_vhr a; st_tokprog a]
  | CHarvestHolderRewards a => [hh_config a; hh_pool a; hh_ptok a; hh_vault a; hh_vhr a; hh_vault_pda a]
  | CHarvestValidatorRewards a => [hv_config a; hv_vhr a; hv_stake a; hv_authority a]
  | CSlashValidatorStake a _ | CSlashSolStakerStake a _ =>
      [sl_config a; sl_stake a; sl_authority a; sl_vault a; sl_vhr a; sl_vault_auth a; sl_mint a]
  | CSetAuthority a _ => [sa_account a]
  | CUpdateConfig a _ => [uc_config a]
  | CInitializeSolStakerStake a => [is_config a; is_duna a; is_stake a; is_override a; is_val a]
  | CHarvestSolStakerRewards a =>
      [hs_config a; hs_vhr a; hs_stake a; hs_authority a; hs_prev a; hs_prev_auth a; hs_cur a;
       hs_cur_auth a] ++ opt_list (hs_keeper a)
  | CUnstakeTokens a _ =>
      [un_config a; un_pool a; un_ptok a; un_stake a; un_authority a; un_vault a; un_vault_pda a;
       un_vhr a; un_mint a; un_dest a; un_tokprog a]
  | CSolStakerMoveTokens a _ => [mv_config a; mv_vhr a; mv_authority a; mv_source a; mv_dest a]
  | CValidatorOverride a _ => [ov_config a; ov_stake a; ov_stake_auth a; ov_vhr a]
  | CValidatorSyncAuthority a => [sy_config a; sy_stake a; sy_vote a]
  end.

Lemma handler_local e cx c ks w1 w2 : agree ks w1 w2 -> incl (names c) ks ->
  alike (agree ks) (handler e cx c w1) (handler e cx c w2).
Proof.
  intros H I. destruct c; cbn [handler names] in *.
  - now apply initialize_config_local.
  - now apply init_val_local.
  - unfold validator_stake_tokens.
    eapply alike_bind_eq; [eapply load_config_local; [eassumption|inks]|intros _ _].
    eapply alike_bind_eq; [eapply load_val_local; [eassumption|inks]|intros _ _].
    now apply stake_tokens_local.
  - now apply harvest_holder_local.
  - now apply harvest_val_local.
  - unfold slash_validator_stake.
    eapply alike_bind_eq; [eapply load_config_local; [eassumption|inks]|intros ? _].
    eapply alike_bind_eq; [eapply load_val_local; [eassumption|inks]|intros ? _].
    now apply slash_local.
  - now apply set_authority_local.
  - now apply update_config_local.
  - now apply init_sol_local.
  - unfold sol_staker_stake_tokens.
    eapply alike_bind_eq; [eapply load_config_local; [eassumption|inks]|intros _ _].
    eapply alike_bind_eq; [eapply load_sol_local; [eassumption|inks]|intros _ _].
    now apply stake_tokens_local.
  - now apply harvest_sol_local.
  - now apply unstake_local.
  - unfold slash_sol_staker_stake.
    eapply alike_bind_eq; [eapply load_config_local; [eassumption|inks]|intros ? _].
    eapply alike_bind_eq; [eapply load_sol_local; [eassumption|inks]|intros ? _].
    now apply slash_local.
  - now apply move_local.
  - now apply override_local.
  - now apply sync_authority_local.
Qed.

Lemma accounts_named e ks i c : accounts_of e ks i = Ok c -> incl (names c) ks.
Proof.
  intros H. unfold accounts_of in H.
  destruct i; unfold need in H;
    match type of H with (let* _ := require ?b _ in _) = _ => destruct b eqn:L; cbn [require bind] in H; [|discriminate] end;
    injection H as <-; apply Nat.leb_le in L; unfold key; intros k I; cbn [names] in I;
    try (apply in_app_or in I; destruct I as [I|I]);
    cbn in I;
    repeat match type of I with _ \/ _ => destruct I as [I|I] end;
    try contradiction; try (subst k; apply nth_In; cbn in *; lia).
  destruct (_ =? _) in I; [destruct I|]. destruct I as [<-|[]]. apply nth_In. lia.
Qed.
Lemma changes_named c : incl (changes c) (names c).
Proof. destruct c; intros k I; cbn [changes names In app] in *; tauto. Qed.

(** ** The runtime's checks *)
Definition part (ks : list pubkey) (k : pubkey) (a : account) : N := if in_dec N.eq_dec k ks then lam a else 0.
Definition rest (ks : list pubkey) (k : pubkey) (a : account) : N := if in_dec N.eq_dec k ks then 0 else lam a.
Lemma part_none ks k : part ks k no_account = 0.
Proof. unfold part. now destruct (in_dec _ _ _). Qed.
Lemma rest_none ks k : rest ks k no_account = 0.
Proof. unfold rest. now destruct (in_dec _ _ _). Qed.
Lemma total_split ks w : total_lamports w = wsum (part ks) w + wsum (rest ks) w.
Proof.
  rewrite <- wsum_add. unfold total_lamports, wsum.
  assert (forall k a s, lam a + s = part ks k a + rest ks k a + s) as E
    by (intros k a s; unfold part, rest; destruct (in_dec _ _ _); lia).
  induction w as [|k a w L IH] using map_ind; [reflexivity|].
  rewrite !map_fold_insert_L; auto; intros; try lia. rewrite IH. apply E.
Qed.
Lemma touches_total ks w w' : touches ks w w' ->
  (total_lamports w = total_lamports w' <-> wsum (part ks) w = wsum (part ks) w').
Proof.
  intros T. rewrite !(total_split ks).
  assert (wsum (rest ks) w' = wsum (rest ks) w) as ->.
  { apply wsum_eq; auto using rest_none. intros k. unfold rest.
    destruct (in_dec N.eq_dec k ks) as [|N]; auto. now rewrite (T k N). }
  lia.
Qed.
Lemma readonly_spec cx w w' :
  forallb (fun k => bool_decide (get w k = get w' k) || writable cx k)
          (map fst (map_to_list w ++ map_to_list w')) = true <->
  forall k, get w k = get w' k \/ writable cx k = true.
Proof.
  rewrite forallb_forall. split.
  - intros H k. destruct (in_dec N.eq_dec k (map fst (map_to_list w ++ map_to_list w'))) as [I|I].
    + apply H, orb_true_iff in I. now rewrite bool_decide_eq_true in I.
    + left. assert (forall m : world, (forall a, In (k, a) (map_to_list m) -> False) -> m !! k = None) as D.
      { intros m J. destruct (m !! k) as [a|] eqn:E; auto. exfalso. apply (J a), elem_of_list_In.
        now apply elem_of_map_to_list. }
      unfold get. rewrite !D; auto; intros a J; apply I; apply in_map_iff; exists (k, a);
        (split; [reflexivity|]); apply in_or_app; auto.
  - intros H k _. apply orb_true_iff. rewrite bool_decide_eq_true. auto.
Qed.
Lemma runtime_check_local cx ks w1 w2 w1' w2' : agree ks w1 w2 -> agree ks w1' w2' ->
  touches ks w1 w1' -> touches ks w2 w2' -> runtime_check cx w1 w1' = runtime_check cx w2 w2'.
Proof.
  intros A A' T1 T2. unfold runtime_check.
  assert ((total_lamports w1 =? total_lamports w1') = (total_lamports w2 =? total_lamports w2')) as ->.
  { apply eq_true_iff_eq. rewrite !N.eqb_eq, !(touches_total ks) by assumption.
    assert (wsum (part ks) w1 = wsum (part ks) w2 /\ wsum (part ks) w1' = wsum (part ks) w2') as [-> ->]; [|reflexivity].
    split; apply wsum_eq; auto using part_none; intros k; unfold part;
      (destruct (in_dec N.eq_dec k ks) as [I|]; [|reflexivity]).
    - now rewrite (A k I).
    - now rewrite (A' k I). }
  match goal with |- (let* _ := ?r in require ?b _) = (let* _ := _ in require ?c _) => assert (b = c) as ->; [|reflexivity] end.
  apply eq_true_iff_eq. rewrite !readonly_spec.
  split; intros H k; destruct (in_dec N.eq_dec k ks) as [I|I]; try (left; symmetry; now auto).
  - rewrite <- (A k I), <- (A' k I). auto.
  - rewrite (A k I), (A' k I). auto.
Qed.

Lemma run_local e cx c ks w1 w2 : agree ks w1 w2 -> incl (names c) ks ->
  alike (agree ks) (run e cx c w1) (run e cx c w2).
Proof.
  intros A I. unfold run. pose proof (handler_local e cx c ks w1 w2 A I) as H.
  destruct (handler e cx c w1) as [w1'| |] eqn:E1, (handler e cx c w2) as [w2'| |] eqn:E2;
    simpl in H; try contradiction; auto.
  cbn [bind]. rewrite (runtime_check_local cx ks w1 w2 w1' w2' A H).
  - eapply alike_bind_eq; [reflexivity|]. intros; exact H.
  - eapply touches_incl; [|eapply touches_did, handler_did, E1].
    eapply incl_tran; [apply changes_named|exact I].
  - eapply touches_incl; [|eapply touches_did, handler_did, E2].
    eapply incl_tran; [apply changes_named|exact I].
Qed.
