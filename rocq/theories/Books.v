(** The staking book under each instruction. *)
From Verif Require Import Base Types Layout Instr Math External Processor Runtime History Spec SpecBook
  WorldLemmas Effects Handlers Evolve Sane Wf Arith Totals Nets Caps Stakers Deposits Inv.

(** ** Equal books *)
Lemma same_refl b : same_book b b.
Proof. split; auto. Qed.
Lemma same_sym b b' : same_book b b' -> same_book b' b.
Proof. intros [A B]. split; auto. Qed.
Lemma same_trans a b c : same_book a b -> same_book b c -> same_book a c.
Proof. intros [A1 A2] [B1 B2]. split; [congruence|]. intros k. now rewrite A2. Qed.
Lemma write_same b b' k en : same_book b b' -> same_book (write b k en) (write b' k en).
Proof.
  intros [A B]. unfold write. split; cbn [bk_page bk_entry].
  - now rewrite A, B.
  - intros x. destruct (x =? k); auto.
Qed.
Definition osame (x y : option book) : Prop :=
  match x, y with Some b, Some b' => same_book b b' | None, None => True | _, _ => False end.
Lemma osame_allow c x y : osame x y -> osame (allow c x) (allow c y).
Proof. destruct c; auto. exact (fun _ => I). Qed.
Lemma osame_bind x y f g : osame x y -> (forall b b', same_book b b' -> osame (f b) (g b')) ->
  osame (obind x f) (obind y g).
Proof. destruct x, y; simpl; intros H F; try contradiction; auto. Qed.
Lemma osame_some b b' : same_book b b' -> osame (Some b) (Some b').
Proof. auto. Qed.
Lemma restake_same b b' k f : same_book b b' -> osame (restake b k f) (restake b' k f).
Proof.
  intros S. pose proof S as [_ B]. unfold restake. rewrite B. destruct (bk_entry b' k) as [en|]; cbn [obind]; [|exact I].
  destruct (en_back en); [|exact I]. destruct (f sol); cbn [obind]; [|exact I]. now apply write_same.
Qed.
Lemma entries_same b b' p : same_book b b' -> same_book (Book p (bk_entry b)) (Book p (bk_entry b')).
Proof. intros [_ B]. split; auto. Qed.
Lemma apply_same sig addr b b' o : same_book b b' -> osame (apply sig addr b o) (apply sig addr b' o).
Proof.
  intros S. pose proof S as [A B]. destruct o; cbn [apply]; rewrite ?A, ?B.
  - exact S.
  - destruct (bk_page b'); [exact I|]. apply osame_allow, osame_some. now apply entries_same.
  - destruct (bk_entry b' k); [exact I|]. apply osame_allow, osame_some. now apply write_same.
  - destruct (bk_entry b' k); [exact I|]. destruct (bk_entry b' (addr vote)) as [[? ? ? ? ? []]|]; try exact I.
    apply osame_some. now apply write_same, write_same.
  - destruct (bk_entry b' k); cbn [obind]; [|exact I]. apply osame_allow, osame_some. now apply write_same.
  - destruct (bk_page b'); cbn [obind]; [|exact I]. destruct (bk_entry b' k); cbn [obind]; [|exact I].
    apply osame_allow, osame_some. now apply write_same.
  - destruct (bk_page b'); cbn [obind]; [|exact I]. destruct (bk_entry b' k); cbn [obind]; [|exact I].
    apply osame_allow, osame_some. now apply write_same.
  - destruct (bk_entry b' src); cbn [obind]; [|exact I]. destruct (bk_entry b' dst); cbn [obind]; [|exact I].
    apply osame_allow, osame_some. now apply write_same, write_same.
  - destruct (bk_entry b' k) as [[? ? ? ? v0 []]|]; try exact I. destruct (_ && _); [exact S|].
    apply osame_bind; [destruct (v0 =? 0); [exact S|now apply restake_same]|].
    intros b1 b1' S1. pose proof S1 as [_ B1]. cbv zeta. rewrite B1.
    set (j := negb (vote =? 0) && _). apply osame_bind; [destruct j; [now apply restake_same|exact S1]|].
    intros b2 b2' S2. apply osame_some. now apply write_same.
  - destruct (bk_page b'); cbn [obind]; [|exact I]. destruct (bk_entry b' k) as [en|]; cbn [obind]; [|exact I].
    destruct (en_back en); [|exact I]. apply osame_allow, osame_some. now apply write_same.
  - destruct (bk_entry b' k) as [en|]; cbn [obind]; [|exact I].
    destruct (en_back en); [|exact I]. apply osame_some. now apply write_same.
  - destruct (bk_page b'); cbn [obind]; [|exact I]. apply osame_allow, osame_some. now apply entries_same.
  - destruct (bk_page b'); cbn [obind]; [|exact I]. apply osame_allow, osame_some. now apply entries_same.
  - destruct (bk_page b'); cbn [obind]; [|exact I]. apply osame_allow. cbv zeta. destruct f.
    + apply osame_some. now apply entries_same.
    + apply osame_allow, osame_some. now apply entries_same.
    + apply osame_some. now apply entries_same.
Qed.

(** ** Reading accounts *)
Definition erased (D : adata) : option entry :=
  let read d back := Entry (staked d) (effective d) (cooldown d) (authority d) (vote d) back in
  match D with
  | DVal v => Some (read (v_del v) (Stakers (v_total v) (v_min v)))
  | DSol s => Some (read (s_del s) (Native (s_lamports s) (s_native s)))
  | _ => None
  end.
Definition home (e : env) (ck : pubkey) (en : entry) : pubkey :=
  match en_back en with Stakers _ _ => e_val e (en_vote en) ck | Native _ n => e_sol e n ck end.
Lemma entry_of_erased e w ck k : entry_of e w ck k =
  if own (get w k) =? e_prog e then
    match erased (dat (get w k)) with Some en => if k =? home e ck en then Some en else None | None => None end
  else None.
Proof. unfold entry_of. destruct (_ =? _); auto. destruct (dat (get w k)); reflexivity. Qed.
Lemma entry_of_eq e w w' ck k : own (get w' k) = own (get w k) ->
  (own (get w k) = e_prog e -> erased (dat (get w' k)) = erased (dat (get w k))) ->
  entry_of e w' ck k = entry_of e w ck k.
Proof.
  intros O D. rewrite !entry_of_erased, O. destruct (N.eqb_spec (own (get w k)) (e_prog e)); auto. now rewrite D.
Qed.
Lemma entry_of_some e w ck k en : entry_of e w ck k = Some en <->
  own (get w k) = e_prog e /\ erased (dat (get w k)) = Some en /\ k = home e ck en.
Proof.
  rewrite entry_of_erased. destruct (N.eqb_spec (own (get w k)) (e_prog e)) as [E|E].
  - destruct (erased (dat (get w k))) as [en'|]; [|split; [discriminate|intros (_ & H & _); discriminate]].
    destruct (N.eqb_spec k (home e ck en')) as [K|K]; split.
    + intros [= <-]. auto.
    + intros (_ & [= <-] & _). auto.
    + discriminate.
    + intros (_ & [= <-] & ?). contradiction.
  - split; [discriminate|intros (? & _); contradiction].
Qed.
Lemma entry_of_none e w ck k : erased (dat (get w k)) = None -> entry_of e w ck k = None.
Proof. intros H. rewrite entry_of_erased, H. now destruct (_ =? _). Qed.
Lemma home_inj e ck ck' en : env_ok e -> home e ck en = home e ck' en -> ck = ck'.
Proof.
  intros OK. unfold home. destruct (en_back en); intros H.
  - now apply (ok_val_inj e OK) in H.
  - now apply (ok_sol_inj e OK) in H.
Qed.
Lemma erased_upd D d x : del_of D = Ok d -> erased D = Some x ->
  forall d', vote d' = vote d -> erased (upd_del D d') =
    Some (Entry (staked d') (effective d') (cooldown d') (authority d') (en_vote x) (en_back x)).
Proof.
  destruct D; simpl; intros [= <-] [= <-] d' V; simpl; rewrite V; reflexivity.
Qed.
Lemma erased_settle c rpt h D : erased (with_del (settle_del c rpt h) D) = erased D.
Proof. destruct D; reflexivity. Qed.
Lemma page_of_config e w ck c : config_at e w ck c -> page_of e w ck =
  Some (Page (cfg_authority c) (cfg_slash c) (cfg_vault c) (cfg_cooldown c) (cfg_bps c) (cfg_sync c)
             (cfg_duna c) (cfg_effective c)).
Proof. intros [O D]. unfold page_of. now rewrite O, D, N.eqb_refl. Qed.
Lemma page_of_eq e w w' ck : own (get w' ck) = own (get w ck) ->
  (own (get w ck) = e_prog e -> dat (get w' ck) = dat (get w ck)) -> page_of e w' ck = page_of e w ck.
Proof.
  intros O D. unfold page_of. rewrite O. destruct (N.eqb_spec (own (get w ck)) (e_prog e)); auto. now rewrite D.
Qed.

Lemma page_of_erased e w k en : erased (dat (get w k)) = Some en -> page_of e w k = None.
Proof. unfold page_of. destruct (_ =? _); auto. destruct (dat (get w k)); auto; discriminate. Qed.

(** One entry is written, and the total follows. *)
Definition wrote (e : env) (ck : pubkey) (w w' : world) (k : pubkey) (en : entry) : Prop :=
  same_book (book_of e w' ck) (write (book_of e w ck) k en) /\
  forall ck', ck' <> ck -> same_book (book_of e w' ck') (book_of e w ck').
Definition idle (e : env) (w w' : world) : Prop := forall ck, same_book (book_of e w' ck) (book_of e w ck).

Lemma wrote_intro e ck w w' k en en' c c' : env_ok e ->
  (forall x, own (get w' x) = own (get w x)) ->
  entry_of e w ck k = Some en -> erased (dat (get w' k)) = Some en' ->
  (forall ck', home e ck' en' = home e ck' en) ->
  config_at e w ck c -> dat (get w' ck) = DConfig c' ->
  c' = set_cfg_effective (set_cfg_last (set_cfg_acc c (cfg_acc c')) (cfg_last c'))
         (cfg_effective c - en_counted en + en_counted en') ->
  (forall x, x <> ck -> x <> k -> own (get w x) = e_prog e -> dat (get w' x) = dat (get w x)) ->
  wrote e ck w w' k en'.
Proof.
  intros OK O EN EN' HM C C' EC OT. apply entry_of_some in EN as (E1 & E2 & E3).
  assert (ck <> k) as NK. { intros ->. destruct C as [_ C]. rewrite C in E2. discriminate. }
  assert (forall ck', entry_of e w ck' k = if ck' =? ck then Some en else None) as EK.
  { intros ck'. destruct (N.eqb_spec ck' ck) as [->|NE]; [apply entry_of_some; auto|].
    destruct (entry_of e w ck' k) as [x|] eqn:X; auto. apply entry_of_some in X as (_ & X1 & X2).
    rewrite E2 in X1. injection X1 as <-. exfalso. apply NE. apply (home_inj e ck' ck en OK). congruence. }
  assert (forall ck', entry_of e w' ck' k = if ck' =? ck then Some en' else None) as EK'.
  { intros ck'. destruct (N.eqb_spec ck' ck) as [->|NE].
    - apply entry_of_some. split; [rewrite O; auto|]. split; [auto|]. rewrite HM. auto.
    - destruct (entry_of e w' ck' k) as [x|] eqn:X; auto. apply entry_of_some in X as (_ & X1 & X2).
      rewrite EN' in X1. injection X1 as <-. exfalso. apply NE. apply (home_inj e ck' ck en OK). rewrite <- HM. congruence. }
  assert (forall ck' x, x <> k -> entry_of e w' ck' x = entry_of e w ck' x) as EX.
  { intros ck' x NX. apply entry_of_eq; auto. intros OX. destruct (N.eqb_spec x ck) as [->|NC].
    - destruct C as [_ C]. now rewrite C, C'.
    - now rewrite OT. }
  split.
  - split.
    + unfold book_of, write. cbn [bk_page bk_entry]. rewrite EK, N.eqb_refl, (page_of_config _ _ _ _ C). cbn [option_map].
      rewrite (page_of_config e w' ck c'); [|split; [rewrite O; apply C|auto]]. rewrite EC. reflexivity.
    + intros x. unfold book_of, write. cbn [bk_entry]. destruct (N.eqb_spec x k) as [->|NX]; [|auto].
      rewrite EK', N.eqb_refl. auto.
  - intros ck' NE. split; unfold book_of; cbn [bk_page bk_entry].
    + destruct (N.eqb_spec ck' k) as [->|NX]; [|apply page_of_eq; auto].
      rewrite (page_of_erased e w k en), (page_of_erased e w' k en') by auto. auto.
    + intros x. destruct (N.eqb_spec x k) as [->|NX]; [|auto]. rewrite EK, EK'.
      now destruct (N.eqb_spec ck' ck).
Qed.

Lemma del_of_erased D d x : del_of D = Ok d -> erased D = Some x ->
  staked d = en_tokens x /\ effective d = en_counted x /\ cooldown d = en_until x /\ authority d = en_owner x /\ vote d = en_vote x.
Proof. destruct D; simpl; intros [= <-] [= <-]; simpl; auto 6. Qed.
Lemma del_of_entry e w ck k en : entry_of e w ck k = Some en -> exists d, del_of (dat (get w k)) = Ok d /\
  staked d = en_tokens en /\ effective d = en_counted en /\ cooldown d = en_until en /\ authority d = en_owner en.
Proof.
  intros H. apply entry_of_some in H as (_ & H & _).
  destruct (dat (get w k)) eqn:D; try discriminate; eexists; (split; [reflexivity|]);
    injection H as <-; simpl; auto 6.
Qed.
Lemma entry_of_stake e w ck k en : entry_of e w ck k = Some en -> exists d, stake_of e w ck k = Some d /\ effective d = en_counted en.
Proof.
  unfold entry_of, stake_of, stake_in. destruct (_ =? _); [|discriminate].
  destruct (dat (get w k)); try discriminate; destruct (_ =? _); try discriminate; intros [= <-]; eauto.
Qed.
Lemma counted_le e w ck k en c : effsum e w -> config_at e w ck c -> entry_of e w ck k = Some en ->
  en_counted en <= cfg_effective c.
Proof.
  intros ES C EN. destruct (entry_of_stake _ _ _ _ _ EN) as (d & S & <-). rewrite (ES _ _ C).
  apply (sum_of_ge e w ck effective k d S).
Qed.
Lemma entry_of_belongs e w ck k : own (get w k) = e_prog e -> belongs e ck k (dat (get w k)) ->
  exists en, entry_of e w ck k = Some en.
Proof.
  intros O B. unfold entry_of. rewrite O, N.eqb_refl.
  destruct (dat (get w k)); try contradiction; simpl in B; rewrite <- B, N.eqb_refl; eauto.
Qed.
Lemma entry_of_val e w ck k v : own (get w k) = e_prog e -> dat (get w k) = DVal v -> k = e_val e (vote (v_del v)) ck ->
  entry_of e w ck k = Some (Entry (staked (v_del v)) (effective (v_del v)) (cooldown (v_del v)) (authority (v_del v))
    (vote (v_del v)) (Stakers (v_total v) (v_min v))).
Proof. intros O D K. unfold entry_of. rewrite O, D, <- K, !N.eqb_refl. reflexivity. Qed.
Lemma entry_of_sol e w ck k v : own (get w k) = e_prog e -> dat (get w k) = DSol v -> k = e_sol e (s_native v) ck ->
  entry_of e w ck k = Some (Entry (staked (s_del v)) (effective (s_del v)) (cooldown (s_del v)) (authority (s_del v))
    (vote (s_del v)) (Native (s_lamports v) (s_native v))).
Proof. intros O D K. unfold entry_of. rewrite O, D, <- K, !N.eqb_refl. reflexivity. Qed.

Lemma chained_wrote e w ck va sk F lim w' f en : env_ok e -> own (get w ck) = e_prog e ->
  entry_of e w ck sk = Some en ->
  (forall D, erased D = Some en -> erased (F D) = Some (f en)) ->
  en_counted (f en) = en_counted en -> (forall ck', home e ck' (f en) = home e ck' en) ->
  lim = sol_behind (en_back (f en)) -> chained e w ck va sk F lim w' ->
  wrote e ck w w' sk (recount (f en)).
Proof.
  intros OK OC EN FF CO HM -> [].
  pose proof EN as EN0. apply entry_of_some in EN0 as (O1 & E1 & H1).
  assert (erased D2 = Some (f en)) as ED by (subst D2; apply FF; rewrite erased_settle; auto).
  destruct (del_of_erased _ _ _ Hd2 ED) as (A1 & A2 & A3 & A4 & A5).
  destruct Hrd as [Rc _ _ _ _ _ _ _ _].
  eapply (wrote_intro e ck w w' sk en (recount (f en)) c); [auto|auto|auto| | |split; [exact OC|exact Rc]|exact Hck| |].
  - rewrite Hsk, (erased_upd D2 d2 (f en)) by auto. unfold recount. simpl. now rewrite A1, A3, A4.
  - intros ck'. rewrite <- HM. reflexivity.
  - simpl. rewrite A1, A2, CO. reflexivity.
  - auto.
Qed.
Lemma harvested_idle e w ck vhr auth va sk keeper w' : harvested e w ck vhr auth va sk keeper w' ->
  idle e w w'.
Proof.
  intros H. pose proof (harvested_sk _ _ _ _ _ _ _ _ _ H) as NS.
  destruct (harvested_net _ _ _ _ _ _ _ _ _ H) as (c & d & h & rpt & sr & hr & RD & _ & _ & O1 & _ & C1 & S1 & X1).
  destruct RD as [RC RDd _ _ _ _ _ _ _].
  intros ck'. split; unfold book_of; cbn [bk_page bk_entry].
  - destruct (N.eqb_spec ck' ck) as [->|NE].
    + unfold page_of. rewrite O1, C1, RC. reflexivity.
    + destruct (N.eqb_spec ck' sk) as [->|NE2]; [|apply page_of_eq; auto].
      unfold page_of. rewrite O1, S1, (with_del_ok _ _ _ RDd). destruct (dat (get w sk)); try discriminate; reflexivity.
  - intros k. apply entry_of_eq; auto. intros OW. destruct (N.eqb_spec k ck) as [->|NE]; [now rewrite C1, RC|].
    destruct (N.eqb_spec k sk) as [->|NE2]; [|now rewrite X1]. now rewrite S1, erased_settle.
Qed.
Lemma idle_trans e w1 w2 w3 : idle e w1 w2 -> idle e w2 w3 -> idle e w1 w3.
Proof. intros A B ck. eapply same_trans; [apply B|apply A]. Qed.
Lemma pframe_idle e w w' : pframe e w w' -> idle e w w'.
Proof.
  intros [PO PD] ck. split; unfold book_of; cbn [bk_page bk_entry].
  - apply page_of_eq; auto.
  - intros k. apply entry_of_eq; auto. intros O. now rewrite PD.
Qed.

Lemma bk_page_of e w ck : bk_page (book_of e w ck) = page_of e w ck.
Proof. reflexivity. Qed.
Lemma bk_entry_of e w ck k : bk_entry (book_of e w ck) k = entry_of e w ck k.
Proof. reflexivity. Qed.
(** The book is turned by an operation on [ck]; the books of other configs stay. *)
Definition turned (e : env) (cx : ctx) (ck : pubkey) (o : op) (w w' : world) : Prop :=
  (exists b', apply (signed cx) (fun v => e_val e v ck) (book_of e w ck) o = Some b' /\ same_book b' (book_of e w' ck)) /\
  forall ck', ck' <> ck -> same_book (book_of e w' ck') (book_of e w ck').
Lemma turned_idle e cx ck w w' : idle e w w' -> turned e cx ck Idle w w'.
Proof.
  intros H. split; [|auto]. exists (book_of e w ck). split; [reflexivity|]. apply same_sym, H.
Qed.
Lemma turned_wrote e cx ck o w w' k en : wrote e ck w w' k en ->
  apply (signed cx) (fun v => e_val e v ck) (book_of e w ck) o = Some (write (book_of e w ck) k en) ->
  turned e cx ck o w w'.
Proof. intros [A B] H. split; [|auto]. eexists. split; [exact H|]. now apply same_sym. Qed.

Lemma limits_erased D en : erased D = Some en -> limits D = sol_behind (en_back en).
Proof. destruct D; simpl; intros [= <-]; simpl; auto. apply N.max_0_r. Qed.

Lemma staked_turned e cx a n w w' : env_ok e -> staked_any e cx a n w w' ->
  turned e cx (st_config a) (Deposit (st_stake a) n) w w'.
Proof.
  intros OK H. pose proof (staked_net _ _ _ _ _ _ OK H) as C. destruct H as [c0 Hco Hc0 Hso Hbel H].
  destruct (entry_of_belongs _ _ _ _ Hso Hbel) as [en EN]. pose proof EN as EN0. apply entry_of_some in EN0 as (_ & ED & _).
  eapply turned_wrote.
  - eapply (chained_wrote _ _ _ _ _ _ _ _ (fun x => with_tokens (en_tokens x + n) x) en); [auto|auto|exact EN| | | | |exact C].
    + intros D E. destruct D; try discriminate; injection E as <-; reflexivity.
    + reflexivity.
    + reflexivity.
    + cbn [with_tokens with_until en_back]. apply (limits_erased _ _ ED).
  - cbn [apply]. rewrite bk_entry_of, EN. cbn [obind].
    destruct H. 
    assert (staked d = en_tokens en) as E.
    { destruct (harvested_net _ _ _ _ _ _ _ _ _ H1) as (cc & dd & h & rpt & sr & hr & RD & _ & _ & _ & _ & _ & S1 & _).
      rewrite S1 in Hd. assert (erased (with_del (settle_del cc rpt h) (dat (get w (st_stake a)))) = Some en) as X by (rewrite erased_settle; auto).
      apply (del_of_erased _ _ _ Hd X). }
    rewrite <- E. rewrite (proj2 (N.ltb_lt _ _) Hpos). change (2 ^ 64) with U64. rewrite (proj2 (N.ltb_lt _ _) Hb). reflexivity.
Qed.
Lemma unstaked_turned e cx a n w w' : env_ok e -> unstaked_ok e cx a n w w' ->
  turned e cx (un_config a) (Withdraw (un_stake a) n (c_now cx)) w w'.
Proof.
  intros OK H. destruct (unstaked_net _ _ _ _ _ _ OK H) as (cq & Dc & C). destruct H.
  rewrite Hc0 in Dc. injection Dc as <-.
  destruct (entry_of_belongs _ _ _ _ Hso Hbel) as [en EN]. pose proof EN as EN0. apply entry_of_some in EN0 as (_ & ED & _).
  destruct (harvested_net _ _ _ _ _ _ _ _ _ H1) as (cc & dd & h & rpt & sr & hr & RD & _ & _ & _ & _ & C1 & S1 & _).
  rewrite S1 in Hd. assert (erased (with_del (settle_del cc rpt h) (dat (get w (un_stake a)))) = Some en) as X by (rewrite erased_settle; auto).
  destruct (del_of_erased _ _ _ Hd X) as (A1 & A2 & A3 & A4 & A5).
  destruct (del_of_erased _ _ _ Hd0 ED) as (B1 & B2 & B3 & B4 & B5).
  assert (cfg_bps c = cfg_bps c0) as EB.
  { destruct RD as [Rc _ _ _ _ _ _ _ _]. rewrite Hc in C1. injection C1 as ->. rewrite Rc in Hc0. injection Hc0 as ->. reflexivity. }
  apply maxdeact_ok in Hmax. subst m. change MAX_BPS with 10000 in Hle. rewrite EB, A1 in Hle.
  eapply turned_wrote.
  - eapply (chained_wrote _ _ _ _ _ _ _ _ (fun x => with_until (sat_add64 (c_now cx) (cfg_cooldown c0)) (with_tokens (en_tokens x - n) x)) en);
      [auto|auto|exact EN| | | | |exact C].
    + intros D E. destruct D; try discriminate; injection E as <-; reflexivity.
    + reflexivity.
    + reflexivity.
    + cbn [with_tokens with_until en_back]. apply (limits_erased _ _ ED).
  - cbn [apply]. rewrite bk_page_of, bk_entry_of, EN, (page_of_config e w (un_config a) c0) by (split; auto).
    cbn [obind pg_bps pg_cooldown]. rewrite <- B4, <- Hau, Hsig, <- A3, (proj2 (N.leb_le _ _) Hcd), (proj2 (N.leb_le _ _) Hle). reflexivity.
Qed.
Lemma slashed_turned e cx a n w w' : env_ok e -> slashed_any e cx a n w w' ->
  turned e cx (sl_config a) (Slash (sl_stake a) n) w w'.
Proof.
  intros OK H. pose proof (slashed_net _ _ _ _ _ _ OK H) as C. destruct H as [c0 Hco Hc0 Hso Hbel H]. destruct H.
  destruct (entry_of_belongs _ _ _ _ Hso Hbel) as [en EN]. pose proof EN as EN0. apply entry_of_some in EN0 as (_ & ED & _).
  destruct (harvested_net _ _ _ _ _ _ _ _ _ H1) as (cc & dd & h & rpt & sr & hr & RD & _ & _ & _ & _ & C1 & S1 & _).
  assert (cfg_slash c = cfg_slash c0) as EB.
  { destruct RD as [Rc _ _ _ _ _ _ _ _]. rewrite Hc in C1. injection C1 as ->. rewrite Rc in Hc0. injection Hc0 as ->. reflexivity. }
  eapply turned_wrote.
  - eapply (chained_wrote _ _ _ _ _ _ _ _ (fun x => with_tokens (en_tokens x - n) x) en);
      [auto|auto|exact EN| | | | |exact C].
    + intros D E. destruct D; try discriminate; injection E as <-; simpl; unfold with_tokens; simpl; do 2 f_equal; lia.
    + reflexivity.
    + reflexivity.
    + cbn [with_tokens with_until en_back]. apply (limits_erased _ _ ED).
  - cbn [apply]. rewrite bk_page_of, bk_entry_of, EN, (page_of_config e w (sl_config a) c0) by (split; auto).
    cbn [obind pg_slash]. rewrite <- EB, <- Hau, Hsig, (proj2 (N.ltb_lt _ _) Hpos). rewrite Hau.
    rewrite (proj2 (N.eqb_neq _ _) Hset). reflexivity.
Qed.
Lemma overridden_turned e cx a n w w' : env_ok e -> overridden_ok e cx a n w w' ->
  turned e cx (ov_config a) (Floor (ov_stake a) n) w w'.
Proof.
  intros OK H. destruct (overridden_net _ _ _ _ _ _ H) as (vq & Dv & C). destruct H.
  rewrite Hv0 in Dv. injection Dv as <-.
  pose proof (entry_of_val _ _ _ _ _ Hso Hv0 Hk) as EN.
  eapply turned_wrote.
  - eapply (chained_wrote _ _ _ _ _ _ _ _ (fun x => match en_back x with Stakers s _ => with_back (Stakers s n) x | _ => x end));
      [auto|auto|exact EN| | | | |exact C].
    + intros D E. destruct D; try discriminate; injection E; intros; subst; unfold with_val; simpl; unfold with_back; simpl; congruence.
    + reflexivity.
    + reflexivity.
    + reflexivity.
  - cbn [apply]. rewrite bk_page_of, bk_entry_of, EN, (page_of_config e w (ov_config a) c0) by (split; auto).
    cbn [obind pg_authority en_back]. rewrite <- Hau, Hsig. rewrite Hau, (proj2 (N.eqb_neq _ _) Hset). reflexivity.
Qed.

(** ** Moves *)
Lemma moved_cfg e cx a n w w' : moved_ok e cx a n w w' ->
  exists c c' s t, dat (get w (mv_config a)) = DConfig c /\ dat (get w' (mv_config a)) = DConfig c' /\
    dat (get w (mv_source a)) = DSol s /\ dat (get w (mv_dest a)) = DSol t /\
    c' = set_cfg_effective (set_cfg_last (set_cfg_acc c (cfg_acc c')) (cfg_last c'))
      (cfg_effective c - effective (s_del s) + N.min (staked (s_del s) - n) (cap (s_lamports s))
         - effective (s_del t) + N.min (staked (s_del t) + n) (cap (s_lamports t))).
Proof.
  intros [].
  pose proof (harvested_sk _ _ _ _ _ _ _ _ _ H1) as N1. pose proof (harvested_sk _ _ _ _ _ _ _ _ _ H2) as N2.
  destruct (harvested_net _ _ _ _ _ _ _ _ _ H1) as (c & d & h & rpt & sr & hr & RD & _ & _ & O1 & _ & C1 & S1 & X1).
  destruct (harvested_net _ _ _ _ _ _ _ _ _ H2) as (c2 & d2 & h2 & rpt2 & sr2 & hr2 & RD2 & _ & _ & O2 & _ & C2 & S2 & X2).
  rewrite Hs0 in S1. simpl in S1. rewrite Ht0 in S2. simpl in S2.
  rewrite X2 in Hs by congruence. rewrite Hs in S1. injection S1 as S1. rewrite Ht in S2. injection S2 as S2.
  rewrite X1 in Ht0 by congruence.
  assert (dat (get w4 (mv_source a)) = DSol (set_s_del s (sub_stake n (s_del s)))) as DS4.
  { rewrite H4, H3. ws. rewrite N.eqb_refl. destruct (N.eqb_spec (mv_dest a) (mv_source a)); [congruence|].
    rewrite X2 by congruence. rewrite Hs. reflexivity. }
  assert (dat (get w4 (mv_dest a)) = DSol (set_s_del t (set_cooldown (set_staked (s_del t) (staked (s_del t) + n))
             (N.max (cooldown (s_del s)) (cooldown (s_del t)))))) as DT4.
  { rewrite H4, H3. ws. rewrite N.eqb_refl. destruct (N.eqb_spec (mv_source a) (mv_dest a)); [congruence|].
    rewrite Ht. reflexivity. }
  assert (dat (get w4 (mv_config a)) = DConfig (settle_cfg c2 rpt2 (lam (get w1 (mv_config a)) - (sr2 + hr2)))) as DC4.
  { rewrite H4, H3. ws. destruct (N.eqb_spec (mv_dest a) (mv_config a)); [congruence|].
    destruct (N.eqb_spec (mv_source a) (mv_config a)); [congruence|]. auto. }
  destruct RD2 as [Rc2 _ _ _ _ _ _ _ _]. rewrite C1 in Rc2. injection Rc2 as <-.
  destruct RD as [Rc _ _ _ _ _ _ _ _].
  destruct H5 as [c5 d5 l5 Hc5 Hd5 Hm5 He5 Hb5 Ho5 Hdat5 _].
  destruct H6 as [c6 d6 l6 Hc6 Hd6 Hm6 He6 Hb6 Ho6 Hdat6 _].
  apply maxstake_ok in Hm5. apply maxstake_ok in Hm6. rewrite N.max_0_r in Hm5, Hm6.
  fold (cap (s_lamports s)) in Hm5. fold (cap (s_lamports t)) in Hm6.
  rewrite DS4 in Hd5. injection Hd5 as <-. rewrite DC4 in Hc5. injection Hc5 as <-.
  pose proof (Hdat5 (mv_dest a)) as T5. rewrite (proj2 (N.eqb_neq _ _) N2) in T5.
  destruct (N.eqb_spec (mv_source a) (mv_dest a)) as [|N3]; [congruence|]. rewrite DT4 in T5.
  rewrite T5 in Hd6. injection Hd6 as <-.
  pose proof (Hdat5 (mv_config a)) as K5. rewrite N.eqb_refl in K5. rewrite K5 in Hc6. injection Hc6 as <-.
  pose proof (Hdat6 (mv_config a)) as K6. rewrite N.eqb_refl in K6.
  subst s t l5 l6. simpl in *.
  exists c. eexists. exists s0, t0. split; [exact Rc|]. split; [exact K6|]. split; [exact Hs0|]. split; [exact Ht0|].
  reflexivity.
Qed.
Lemma others_intro e w w' ck ks : env_ok e ->
  (forall x, own (get w x) = e_prog e -> own (get w' x) = e_prog e) ->
  (forall x, x <> ck -> ~ In x ks -> own (get w' x) = own (get w x) /\ (own (get w x) = e_prog e -> dat (get w' x) = dat (get w x))) ->
  (forall x, In x ks -> (own (get w x) = e_prog e -> entry_of e w ck x <> None \/ erased (dat (get w x)) = None /\ page_of e w x = None) /\ entry_of e w' ck x <> None) ->
  (exists c, dat (get w ck) = DConfig c) -> (exists c', dat (get w' ck) = DConfig c') ->
  forall ck', ck' <> ck -> same_book (book_of e w' ck') (book_of e w ck').
Proof.
  intros OK OW OT KS [c C] [c' C'] ck' NE.
  assert (forall v x, entry_of e v ck x <> None -> entry_of e v ck' x = None /\ page_of e v x = None) as ELS.
  { intros v x H. destruct (entry_of e v ck x) as [en|] eqn:E; [|contradiction]. apply entry_of_some in E as (E1 & E2 & E3).
    split; [|eapply page_of_erased; eauto]. destruct (entry_of e v ck' x) as [y|] eqn:Y; auto.
    apply entry_of_some in Y as (_ & Y2 & Y3). rewrite E2 in Y2. injection Y2 as <-. exfalso. apply NE.
    apply (home_inj e ck' ck en OK). congruence. }
  assert (forall x, In x ks -> entry_of e w ck' x = None /\ page_of e w x = None) as PRE.
  { intros x I. destruct (KS x I) as [K _]. destruct (N.eq_dec (own (get w x)) (e_prog e)) as [E|E].
    - destruct (K E) as [K'|[K1 K2]]; [auto|]. split; [now apply entry_of_none|auto].
    - unfold entry_of, page_of. now rewrite (proj2 (N.eqb_neq _ _) E). }
  assert (forall x, In x ks -> entry_of e w' ck' x = None /\ page_of e w' x = None) as POST.
  { intros x I. apply ELS, (KS x I). }
  split; unfold book_of; cbn [bk_page bk_entry].
  - destruct (in_dec N.eq_dec ck' ks) as [I|I].
    + destruct (PRE _ I) as [_ ->], (POST _ I) as [_ ->]. auto.
    + apply page_of_eq; apply OT; auto.
  - intros x. destruct (in_dec N.eq_dec x ks) as [I|I].
    + destruct (PRE _ I) as [-> _], (POST _ I) as [-> _]. auto.
    + destruct (N.eq_dec x ck) as [->|NX].
      * rewrite !entry_of_none; auto; [now rewrite C|now rewrite C'].
      * apply entry_of_eq; [now apply OT|]. intros O. f_equal. now apply OT.
Qed.
Lemma moved_turned e cx a n w w' : env_ok e -> moved_ok e cx a n w w' ->
  turned e cx (mv_config a) (Move (mv_source a) (mv_dest a) n) w w'.
Proof.
  intros OK H. destruct (moved_cfg _ _ _ _ _ _ H) as (c & c' & s & t & C & C' & S & T & EC).
  destruct (moved_net_ok _ _ _ _ _ _ H) as [s1 t1 ds dt c1 Hs Ht Ham Hb Hau Hds Hdt Hs' Ht' Hc' _ _ Hown Hoth].
  rewrite Hs in S. injection S as ->. rewrite Ht in T. injection T as ->. rewrite C' in Hc'. injection Hc' as <-.
  destruct H. rewrite Hs in Hs0. injection Hs0 as <-.
  pose proof (harvested_sk _ _ _ _ _ _ _ _ _ H1) as N1. pose proof (harvested_sk _ _ _ _ _ _ _ _ _ H2) as N2.
  assert (mv_dest a = e_sol e (s_native t) (mv_config a)) as TK.
  { destruct (harvested_net _ _ _ _ _ _ _ _ _ H1) as (cq & d & h & rpt & sr & hr & RD & _ & _ & O1 & _ & C1 & S1 & X1).
    rewrite X1 in Ht0 by congruence. rewrite Ht in Ht0. injection Ht0 as <-. auto. }
  pose proof (entry_of_sol _ _ _ _ _ Hso Hs Hsk) as ES. pose proof (entry_of_sol _ _ _ _ _ Hto Ht TK) as ET.
  assert (own (get w' (mv_source a)) = e_prog e) as Hso' by now rewrite Hown.
  assert (own (get w' (mv_dest a)) = e_prog e) as Hto' by now rewrite Hown.
  pose proof (entry_of_sol _ _ _ _ _ Hso' Hs' Hsk) as ES'. pose proof (entry_of_sol _ _ _ _ _ Hto' Ht' TK) as ET'.
  split.
  - cbn [apply]. rewrite !bk_entry_of, ES, ET. cbn [obind en_owner en_tokens en_until].
    assert (signed cx (authority (s_del s)) = true) as SG by congruence.
    assert (N.eqb (authority (s_del s)) (authority (s_del t)) = true) as AE by now apply N.eqb_eq.
    rewrite (proj2 (N.eqb_neq _ _) (not_eq_sym Hne)), SG, AE.
    rewrite (proj2 (N.leb_le _ _) Ham). change (2 ^ 64) with U64. rewrite (proj2 (N.ltb_lt _ _) Hb). cbn [negb andb allow].
    eexists. split; [reflexivity|]. split.
    + unfold write. cbn [bk_page bk_entry]. rewrite !bk_entry_of, ES, bk_page_of.
      rewrite (proj2 (N.eqb_neq _ _) Hne), ET, (page_of_config e w (mv_config a) c) by (split; auto).
      rewrite bk_page_of, (page_of_config e w' (mv_config a) c') by (split; [rewrite Hown|]; auto).
      rewrite EC. reflexivity.
    + intros x. unfold write. cbn [bk_entry]. rewrite !bk_entry_of.
      destruct (N.eqb_spec x (mv_dest a)) as [->|X1]; [rewrite ET', Hdt; reflexivity|].
      destruct (N.eqb_spec x (mv_source a)) as [->|X2]; [rewrite ES', Hds; reflexivity|].
      symmetry. apply entry_of_eq; auto. intros _. destruct (N.eq_dec x (mv_config a)) as [->|X3]; [now rewrite C, C'|].
      now rewrite Hoth.
  - apply (others_intro e w w' (mv_config a) [mv_source a; mv_dest a]); auto.
    + intros x O. now rewrite Hown.
    + intros x X1 X2. split; auto. intros _. apply Hoth; auto; intros ->; apply X2; simpl; auto.
    + intros x [<-|[<-|[]]]; (split; [intros _; left|]); rewrite ?ES, ?ET, ?ES', ?ET'; discriminate.
    + eauto.
    + eauto.
Qed.

(** ** Harvests of SOL stakers *)
Lemma revalidated_turned e w ck vhr vs vk cv vauth f g w' : env_ok e -> sane e w ->
  own (get w ck) = e_prog e -> own (get w vk) = e_prog e -> vk = e_val e cv ck ->
  (forall s t, f s = Ok t -> g s = Some t) ->
  revalidated e w ck vhr vs vk vauth f w' ->
  exists b', restake (book_of e w ck) vk g = Some b' /\ same_book b' (book_of e w' ck) /\
    entry_of e w ck vk <> None /\
    (forall x, x <> vk -> entry_of e w' ck x = entry_of e w ck x) /\
    (forall ck', ck' <> ck -> same_book (book_of e w' ck') (book_of e w ck')).
Proof.
  intros OK SN OC OV VK FG H. destruct (revalidated_net _ _ _ _ _ _ _ _ _ OC OV H) as (v & t & DV & FT & C).
  assert (vk = e_val e (vote (v_del v)) ck) as VV.
  { destruct (sane_val _ _ SN vk v (conj OV DV)) as (ck' & c' & E & _). rewrite VK in E.
    destruct (ok_val_inj e OK _ _ _ _ E) as [<- <-]. auto. }
  pose proof (entry_of_val _ _ _ _ _ OV DV VV) as EN.
  assert (wrote e ck w w' vk (recount (with_back (Stakers t (v_min v)) (Entry (staked (v_del v)) (effective (v_del v))
           (cooldown (v_del v)) (authority (v_del v)) (vote (v_del v)) (Stakers (v_total v) (v_min v)))))) as [W1 W2].
  { eapply (chained_wrote _ _ _ _ _ _ _ _ (with_back (Stakers t (v_min v)))); [auto|auto|exact EN| | | | |exact C].
    + intros D E. destruct D; try discriminate; injection E; intros; subst; unfold with_val; simpl; unfold with_back; simpl; congruence.
    + reflexivity.
    + reflexivity.
    + reflexivity. }
  unfold restake. rewrite bk_entry_of, EN. cbn [obind en_back]. rewrite (FG _ _ FT). cbn [obind].
  eexists. split; [reflexivity|]. split; [now apply same_sym|]. split; [discriminate|]. split; [|auto].
  intros x NX. destruct W1 as [_ W1]. specialize (W1 x). rewrite bk_entry_of in W1. rewrite W1.
  unfold write. cbn [bk_entry]. rewrite (proj2 (N.eqb_neq _ _) NX). reflexivity.
Qed.
Lemma renative_wrote e ck w w' k s cv cs : env_ok e -> own (get w ck) = e_prog e -> own (get w k) = e_prog e ->
  dat (get w k) = DSol s -> k = e_sol e (s_native s) ck ->
  resynced (setd w k (DSol (SStake (set_vote (s_del s) cv) cs (s_native s)))) ck k (N.max cs 0) w' ->
  wrote e ck w w' k (recount (Entry (staked (s_del s)) (effective (s_del s)) (cooldown (s_del s)) (authority (s_del s)) cv
    (Native cs (s_native s)))).
Proof.
  intros OK OC OS DS KS H. pose proof (entry_of_sol _ _ _ _ _ OS DS KS) as EN. destruct H.
  wsi Hd. rewrite N.eqb_refl in Hd. injection Hd as <-. wsi Hc. destruct (N.eqb_spec k ck) as [|NE]; [discriminate|].
  apply maxstake_ok in Hm. rewrite N.max_0_r in Hm. fold (cap cs) in Hm. subst limit.
  pose proof (Hdat ck) as DC. rewrite N.eqb_refl in DC.
  pose proof (Hdat k) as DK. rewrite (proj2 (N.eqb_neq _ _) (not_eq_sym NE)), N.eqb_refl in DK. wsi DK. rewrite N.eqb_refl in DK.
  eapply (wrote_intro e ck w w' k); [auto| |exact EN| | |split; [exact OC|exact Hc]|exact DC| |].
  - intros x. rewrite Ho. ws. auto.
  - rewrite DK. reflexivity.
  - reflexivity.
  - reflexivity.
  - intros x X1 X2 _. rewrite Hdat, (proj2 (N.eqb_neq _ _) (not_eq_sym X1)), (proj2 (N.eqb_neq _ _) (not_eq_sym X2)). ws.
    now rewrite (proj2 (N.eqb_neq _ _) (not_eq_sym X2)).
Qed.
Lemma osame_some_l b y : osame (Some b) y -> exists b', y = Some b' /\ same_book b b'.
Proof. destruct y; simpl; [eauto|contradiction]. Qed.
Lemma harvested_sol_turned e cx a w w' vw : env_ok e -> sane e w -> wf_ctx e cx -> c_view cx = Some vw ->
  harvested_sol_ok e cx a w w' ->
  turned e cx (hs_config a) (Report (hs_stake a) (vw_vote vw) (vw_effective vw)) w w'.
Proof.
  intros OK SN WC VW [].
  - rewrite VW in Hvw. injection Hvw as <-. pose proof (harvested_idle _ _ _ _ _ _ _ _ _ H1) as ID. split; [|auto].
    exists (book_of e w (hs_config a)). split; [|apply same_sym, ID].
    cbn [apply]. rewrite bk_entry_of, (entry_of_sol _ _ _ _ _ Hso Hs Hk). destruct Hsame as [-> ->]. now rewrite !N.eqb_refl.
  - rewrite VW in Hvw. injection Hvw as <-. pose proof (harvested_idle _ _ _ _ _ _ _ _ _ H1) as ID.
    pose proof (entry_of_sol _ _ _ _ _ Hso Hs Hk) as EN.
    pose proof (evolves_harvest _ _ _ _ _ _ _ _ _ H1) as V1. pose proof (sane_evolves _ _ _ SN V1) as SN1.
    pose proof (evolves_left _ _ _ _ _ H2) as V2. pose proof (sane_evolves _ _ _ SN1 V2) as SN2.
    pose proof (evolves_joined _ _ _ _ _ _ _ _ H3) as V3. pose proof (sane_evolves _ _ _ SN2 V3) as SN3.
    assert (forall x, own (get w1 x) = own (get w x)) as O1 by (destruct H1; auto).
    assert (own (get w1 (hs_config a)) = e_prog e) as C1 by (rewrite O1; auto).
    assert (entry_of e w1 (hs_config a) (hs_stake a) = entry_of e w (hs_config a) (hs_stake a)) as EN1 by apply ID.
    pose proof (harvested_net _ _ _ _ _ _ _ _ _ H1) as HN.
    assert (vote (s_del s1) = vote (s_del s) /\ s_lamports s1 = s_lamports s) as [SV SL].
    { destruct HN as (c & d & h & rpt & sr & hr & _ & _ & _ & _ & _ & _ & S1 & _).
      rewrite Hs1, Hs in S1. injection S1 as ->. split; reflexivity. }
    (* leaving *)
    assert (exists b1, (if vote (s_del s) =? 0 then Some (book_of e w1 (hs_config a)) else
               restake (book_of e w1 (hs_config a)) (e_val e (vote (s_del s)) (hs_config a))
                 (fun t => allow (s_lamports s <=? t) (Some (t - s_lamports s)))) = Some b1 /\
              same_book b1 (book_of e w2 (hs_config a)) /\
              (forall x, (forall v, x <> e_val e v (hs_config a)) -> entry_of e w2 (hs_config a) x = entry_of e w1 (hs_config a) x) /\
              (forall ck', ck' <> hs_config a -> same_book (book_of e w2 ck') (book_of e w1 ck')) /\
              own (get w2 (hs_config a)) = e_prog e) as (b1 & L1 & L2 & L3 & L4 & C2).
    { destruct H2.
      - rewrite SV in *. rewrite (proj2 (N.eqb_neq _ _) Hv).
        assert (forall s0 t, csub s0 (s_lamports s1) = Ok t -> allow (s_lamports s <=? s0) (Some (s0 - s_lamports s)) = Some t) as FG.
        { intros s0 t CS. apply csub_ok in CS as [L ->]. rewrite <- SL, (proj2 (N.leb_le _ _) L). reflexivity. }
        destruct (revalidated_turned e w1 _ _ _ _ _ _ _ _ _ OK SN1 C1 Ho Hk0 FG H) as (b1 & R1 & R2 & _ & R4 & R5).
        exists b1. rewrite <- Hk0. split; [exact R1|]. split; [exact R2|]. split; [|split; [exact R5|]].
        + intros x NX. apply R4. rewrite Hk0. apply NX.
        + destruct (revalidated_net _ _ _ _ _ _ _ _ _ C1 Ho H) as (v & t & _ & _ & []). rewrite Hown. auto.
      - rewrite SV in Hv. rewrite Hv, N.eqb_refl. subst w2. exists (book_of e w1 (hs_config a)).
        split; [auto|]. split; [apply same_refl|]. split; [auto|]. split; [intros; apply same_refl|auto]. }
    (* joining *)
    set (joins := negb (vw_vote vw =? 0) && match bk_entry b1 (e_val e (vw_vote vw) (hs_config a)) with Some _ => true | None => false end).
    assert (exists b2, (if joins then restake b1 (e_val e (vw_vote vw) (hs_config a))
                 (fun t => allow (t + vw_effective vw <? 2 ^ 64) (Some (t + vw_effective vw))) else Some b1) = Some b2 /\
              same_book b2 (book_of e w3 (hs_config a)) /\
              (forall x, (forall v, x <> e_val e v (hs_config a)) -> entry_of e w3 (hs_config a) x = entry_of e w2 (hs_config a) x) /\
              (forall ck', ck' <> hs_config a -> same_book (book_of e w3 ck') (book_of e w2 ck')) /\
              own (get w3 (hs_config a)) = e_prog e /\ cv = (if joins then vw_vote vw else 0) /\
              cs = (if joins then vw_effective vw else 0)) as (b2 & J1 & J2 & J3 & J4 & C3 & -> & ->).
    { destruct H3.
      - assert (forall s0 t, add64 s0 (vw_effective vw) = Ok t ->
                  allow (s0 + vw_effective vw <? 2 ^ 64) (Some (s0 + vw_effective vw)) = Some t) as FG.
        { intros s0 t CS. apply add64_ok in CS as [-> L]. change (2 ^ 64) with U64. now rewrite (proj2 (N.ltb_lt _ _) L). }
        destruct (revalidated_turned e w2 _ _ _ _ _ _ _ _ _ OK SN2 C2 Ho Hk0 FG H) as (b2 & R1 & R2 & R3 & R4 & R5).
        assert (joins = true) as ->.
        { unfold joins. rewrite (proj2 (N.eqb_neq _ _) Hv), (proj2 L2), bk_entry_of, <- Hk0.
          destruct (entry_of e w2 (hs_config a) (hs_cur a)); [reflexivity|contradiction]. }
        pose proof (restake_same _ _ (hs_cur a) (fun t => allow (t + vw_effective vw <? 2 ^ 64) (Some (t + vw_effective vw)))
                      (same_sym _ _ L2)) as RS.
        rewrite R1 in RS. apply osame_some_l in RS as (b2' & RS1 & RS2).
        exists b2'. rewrite <- Hk0. split; [exact RS1|]. split; [eapply same_trans; [apply same_sym, RS2|exact R2]|].
        split; [intros x NX; apply R4; rewrite Hk0; apply NX|]. split; [exact R5|]. split; [|auto].
        destruct (revalidated_net _ _ _ _ _ _ _ _ _ C2 Ho H) as (v & t & _ & _ & []). rewrite Hown. auto.
      - assert (joins = false) as ->.
        { unfold joins. rewrite (proj2 L2), bk_entry_of, <- Hk0. unfold entry_of. rewrite (proj2 (N.eqb_neq _ _) Ho).
          now rewrite andb_false_r. }
        subst w3. exists b1. split; [auto|]. split; [auto|]. split; [auto|]. split; [intros; apply same_refl|auto].
      - assert (joins = false) as ->. { unfold joins. now rewrite (proj2 (N.eqb_eq _ _) Hv). }
        subst w3. exists b1. split; [auto|]. split; [auto|]. split; [auto|]. split; [intros; apply same_refl|].
        split; [auto|]. split; [auto|]. destruct WC as (_ & _ & WC). rewrite Hcs. apply (WC vw VW). exact Hv. }
    assert (forall v, hs_stake a <> e_val e v (hs_config a)) as NV by (intros v; rewrite Hk; apply not_eq_sym, (ok_val_sol e OK)).
    assert (entry_of e w3 (hs_config a) (hs_stake a) = entry_of e w (hs_config a) (hs_stake a)) as EN3.
    { rewrite J3, L3 by auto. exact EN1. }
    rewrite EN in EN3. pose proof EN3 as EN3'. apply entry_of_some in EN3' as (S3o & S3e & _). rewrite Hs3 in S3e.
    injection S3e as E1 E2 E3 E4 E5 E6 E7.
    subst w4. rewrite <- E7 in Hk.
    destruct (renative_wrote e _ w3 w' _ s3 _ _ OK C3 S3o Hs3 Hk H5) as [W1 W2].
    split.
    + pose proof (ID (hs_config a)) as S1.
      assert (osame (apply (signed cx) (fun v => e_val e v (hs_config a)) (book_of e w1 (hs_config a)) (Report (hs_stake a) (vw_vote vw) (vw_effective vw)))
                    (apply (signed cx) (fun v => e_val e v (hs_config a)) (book_of e w (hs_config a)) (Report (hs_stake a) (vw_vote vw) (vw_effective vw)))) as AS
        by (apply apply_same; exact S1).
      cbn [apply] in AS. rewrite bk_entry_of, EN1, EN in AS.
      assert ((vw_vote vw =? vote (s_del s)) && (vw_effective vw =? s_lamports s) = false) as DF.
      { apply andb_false_iff. destruct Hdiff as [X|X]; [right|left]; now apply N.eqb_neq. }
      rewrite DF in AS. rewrite L1 in AS. cbn [obind] in AS. cbv zeta in AS. fold joins in AS. rewrite J1 in AS. cbn [obind] in AS.
      apply osame_some_l in AS as (b' & AS1 & AS2). exists b'. cbn [apply]. split; [exact AS1|].
      eapply same_trans; [apply same_sym, AS2|]. eapply same_trans; [|apply same_sym, W1].
      rewrite E1, E2, E3, E4, E7. apply write_same. exact J2.
    + intros ck' NE. eapply same_trans; [apply W2; auto|]. eapply same_trans; [apply J4; auto|].
      eapply same_trans; [apply L4; auto|]. apply ID.
Qed.

(** ** What an account shows of the books *)
Definition shown (e : env) (w : world) (k : pubkey) : option entry :=
  if own (get w k) =? e_prog e then erased (dat (get w k)) else None.
Definition face (e : env) (w : world) (k : pubkey) : option page * option entry := (page_of e w k, shown e w k).
Lemma entry_of_shown e w ck k : entry_of e w ck k =
  match shown e w k with Some en => if k =? home e ck en then Some en else None | None => None end.
Proof. rewrite entry_of_erased. unfold shown. now destruct (_ =? _). Qed.
Lemma face_eq e w w' k : own (get w' k) = own (get w k) -> (own (get w k) = e_prog e -> dat (get w' k) = dat (get w k)) ->
  face e w' k = face e w k.
Proof.
  intros O D. unfold face, shown. rewrite (page_of_eq e w w') by auto. rewrite O.
  destruct (N.eqb_spec (own (get w k)) (e_prog e)) as [E|]; auto. now rewrite D.
Qed.
Lemma face_none e w k : (own (get w k) = e_prog e -> exists b, dat (get w k) = DRaw b) -> face e w k = (None, None).
Proof.
  intros H. unfold face, page_of, shown. destruct (N.eqb_spec (own (get w k)) (e_prog e)) as [E|]; auto.
  destruct (H E) as [b ->]. reflexivity.
Qed.
Lemma idle_face e w w' : (forall k, face e w' k = face e w k) -> idle e w w'.
Proof.
  intros F ck. split.
  - rewrite !bk_page_of. now injection (F ck).
  - intros k. rewrite !bk_entry_of, !entry_of_shown. injection (F k) as _ ->. reflexivity.
Qed.
Lemma face_frame e w w' x : (forall k, k <> x -> face e w' k = face e w k) -> shown e w' x = shown e w x ->
  (forall ck k, entry_of e w' ck k = entry_of e w ck k) /\
  (forall ck, ck <> x -> same_book (book_of e w' ck) (book_of e w ck)).
Proof.
  intros F X. assert (forall ck k, entry_of e w' ck k = entry_of e w ck k) as EE.
  { intros ck k. rewrite !entry_of_shown. destruct (N.eq_dec k x) as [->|N]; [now rewrite X|].
    injection (F k N) as _ ->. reflexivity. }
  split; [auto|]. intros ck N. split; [|intros k; apply EE]. rewrite !bk_page_of. now injection (F ck N).
Qed.
Lemma wrote_face e ck w w' x en : env_ok e -> (forall k, k <> x -> face e w' k = face e w k) ->
  page_of e w x = None -> entry_of e w' ck x = Some en -> (forall ck', ck' <> ck -> entry_of e w ck' x = None) ->
  (exists p, page_of e w ck = Some p /\
    pg_total p - match entry_of e w ck x with Some y => en_counted y | None => 0 end + en_counted en = pg_total p) ->
  wrote e ck w w' x en.
Proof.
  intros OK F P EN OT (p & PG & TT). pose proof EN as EN0. apply entry_of_some in EN0 as (O & D & H).
  assert (page_of e w' x = None) as P' by (eapply page_of_erased; eauto).
  assert (forall q, page_of e w' q = page_of e w q) as PP.
  { intros q. destruct (N.eq_dec q x) as [->|N]; [congruence|]. now injection (F q N). }
  assert (forall ck' k, k <> x -> entry_of e w' ck' k = entry_of e w ck' k) as EE.
  { intros ck' k N. rewrite !entry_of_shown. injection (F k N) as _ ->. reflexivity. }
  split.
  - split.
    + unfold write. cbn [bk_page]. rewrite !bk_page_of, !bk_entry_of, PP, PG. cbn [option_map]. rewrite TT. now destruct p.
    + intros k. unfold write. cbn [bk_entry]. rewrite !bk_entry_of. destruct (N.eqb_spec k x) as [->|N]; [auto|apply EE; auto].
  - intros ck' N. split; [rewrite !bk_page_of; apply PP|]. intros k. rewrite !bk_entry_of.
    destruct (N.eq_dec k x) as [->|NK]; [|apply EE; auto]. rewrite (OT ck' N), entry_of_erased, O, N.eqb_refl, D.
    destruct (N.eqb_spec x (home e ck' en)) as [X|]; auto. exfalso. apply N. apply (home_inj e ck' ck en OK). congruence.
Qed.

(** ** The other instructions *)
Lemma held_idle e cx a w w' : env_ok e -> held_ok e cx a w w' -> idle e w w'.
Proof.
  intros OK H. pose proof (evolves_held _ _ _ _ _ OK H) as EV. destruct H.
  pose proof (pframe_rharvested _ _ _ _ _ _ _ _ _ _ OK H2) as [PO PD].
  destruct H1 as [c1 rpt Hc1 _ _ Hw1]. apply idle_face. intros k.
  pose proof (ev_own _ _ _ EV k) as OE.
  destruct (N.eq_dec k (hh_config a)) as [->|NE].
  - rewrite PD in Hc by (rewrite Hw1; ws; auto). rewrite Hw1 in Hc. wsi Hc. rewrite N.eqb_refl in Hc. injection Hc as <-.
    unfold face, shown, page_of. rewrite OE, Hco, N.eqb_refl, Hc1. rewrite H4. ws. rewrite N.eqb_refl. reflexivity.
  - apply face_eq; auto. intros O. rewrite H4. ws. destruct (N.eqb_spec (hh_config a) k); [congruence|].
    rewrite H3. ws. rewrite PD; rewrite Hw1; ws; auto. destruct (N.eqb_spec (hh_config a) k); [congruence|auto].
Qed.
Lemma rely_idle e w w' : rely e w w' -> idle e w w'.
Proof.
  intros R. apply idle_face. intros k. destruct (N.eq_dec (own (get w k)) (e_prog e)) as [O|O].
  - destruct (rely_owned _ _ _ R k O) as [(A & B & _)|(_ & [n Z] & X & _)]; [apply face_eq; [congruence|auto]|].
    rewrite (face_none e w) by eauto. apply face_none. intros O'. destruct (X O') as [m ->]. eauto.
  - rewrite (face_none e w) by (intros; contradiction). apply face_none. intros O'.
    destruct (rely_new _ _ _ R k O O') as [m ->]. eauto.
Qed.
Lemma config_turned e cx a s au cd b sy du w w' : env_ok e -> sane e w ->
  config_created e cx a s au cd b sy du w w' ->
  turned e cx (ic_config a) (Open (Page au s (ic_vault a) cd b sy du 0)) w w'.
Proof.
  intros OK SN H. destruct (config_created_facts _ _ _ _ _ _ _ _ _ _ _ OK SN H) as (bs & D & NB & O & NP & NE). destruct H.
  assert (face e w (ic_config a) = (None, None)) as F0 by (apply face_none; eauto). injection F0 as F1 F2.
  pose proof (Hd (ic_config a)) as D'. rewrite N.eqb_refl in D'.
  assert (own (get w' (ic_config a)) = e_prog e) as O'.
  { rewrite Ho. now destruct (_ =? _). }
  destruct (face_frame e w w' (ic_config a)) as [EE BB].
  { intros k N. destruct (N.eq_dec k (ic_vault_pda a)) as [->|NK].
    - rewrite (face_none e w) by eauto. apply face_none. intros _. rewrite Hd.
      rewrite (proj2 (N.eqb_neq _ _) NE). eauto.
    - apply face_eq; [rewrite Ho; now rewrite (proj2 (N.eqb_neq _ _) (not_eq_sym NK))|].
      intros _. rewrite Hd. now rewrite (proj2 (N.eqb_neq _ _) (not_eq_sym N)). }
  { rewrite F2. unfold shown. rewrite O', D', N.eqb_refl. reflexivity. }
  split; [|auto]. cbn [apply]. rewrite bk_page_of, F1. cbn [pg_bps pg_total]. change MAX_BPS with 10000 in Hbps.
  rewrite (proj2 (N.leb_le _ _) Hbps). cbn [allow andb N.eqb]. eexists. split; [reflexivity|]. split.
  - cbn [bk_page]. rewrite bk_page_of. rewrite (page_of_config e w' _ _ (conj O' D')). reflexivity.
  - intros k. cbn [bk_entry]. rewrite !bk_entry_of. symmetry. apply EE.
Qed.
Lemma cfg_turned e w w' x c c' : config_at e w x c -> w' = setd w x (DConfig c') ->
  (forall k, entry_of e w' x k = entry_of e w x k) /\
  (forall ck, ck <> x -> same_book (book_of e w' ck) (book_of e w ck)) /\ config_at e w' x c'.
Proof.
  intros [O D] ->. destruct (face_frame e w (setd w x (DConfig c')) x) as [EE BB].
  - intros k N. apply face_eq; ws; auto. intros _. now rewrite (proj2 (N.eqb_neq _ _) (not_eq_sym N)).
  - unfold shown. ws. now rewrite O, D, !N.eqb_refl.
  - split; [auto|]. split; [auto|]. split; ws; [auto|]. now rewrite N.eqb_refl.
Qed.
Lemma authority_turned e cx a t w w' : authority_set e cx a t w w' ->
  turned e cx (sa_account a) (match t with AuthConfig => NewAuthority (sa_new a) | AuthSlash => NewSlash (sa_new a) end) w w'.
Proof.
  intros []. destruct (cfg_turned e w w' _ c _ (conj Hco Hc) Hw) as (EE & BB & CC). split; [|auto].
  rewrite Hau in Hsig, Hne.
  destruct t; cbn [apply]; rewrite bk_page_of, (page_of_config _ _ _ _ (conj Hco Hc));
    cbn [obind pg_authority pg_slash]; rewrite (proj2 (N.eqb_neq _ _) Hne), Hsig; cbn [negb andb allow];
    (eexists; split; [reflexivity|]; split;
      [cbn [bk_page]; rewrite bk_page_of, (page_of_config _ _ _ _ CC); reflexivity
      |intros k; cbn [bk_entry]; rewrite !bk_entry_of; symmetry; apply EE]).
Qed.
Lemma updated_turned e cx a f w w' : config_updated e cx a f w w' -> turned e cx (uc_config a) (Terms f) w w'.
Proof.
  intros []. destruct (cfg_turned e w w' _ c _ (conj Hco Hc) Hw) as (EE & BB & CC). split; [|auto].
  rewrite Hau in Hsig.
  cbn [apply]; rewrite bk_page_of, (page_of_config _ _ _ _ (conj Hco Hc)).
  cbn [obind pg_authority]. rewrite (proj2 (N.eqb_neq _ _) Hset), Hsig; cbn [negb andb allow]. cbv zeta.
  destruct f as [x|x|x].
  2: pose proof (Hf x eq_refl) as LE; change MAX_BPS with 10000 in LE; rewrite (proj2 (N.leb_le _ _) LE); cbn [allow].
  all: (eexists; split; [reflexivity|]; split;
      [cbn [bk_page]; rewrite bk_page_of, (page_of_config _ _ _ _ CC); reflexivity
      |intros k; cbn [bk_entry]; rewrite !bk_entry_of; symmetry; apply EE]).
Qed.
Lemma synced_turned e cx a w w' : env_ok e -> sane e w -> effsum e w -> authority_synced e cx a w w' ->
  turned e cx (sy_config a) (Owner (sy_stake a) (withdrawer_of w (sy_vote a))) w w'.
Proof.
  intros OK SN ES []. assert (sy_stake a = e_val e (vote (v_del v)) (sy_config a)) as VV.
  { destruct (sane_val _ _ SN _ v (conj Hso Hv)) as (ck' & c' & E & _). rewrite Hk in E.
    destruct (ok_val_inj e OK _ _ _ _ E) as [<- <-]. auto. }
  pose proof (entry_of_val _ _ _ _ _ Hso Hv VV) as EN.
  assert (dat (get w' (sy_stake a)) = DVal (set_v_del v (set_authority (v_del v) wd))) as DV'.
  { rewrite Hw. ws. rewrite N.eqb_refl, Hv. reflexivity. }
  assert (own (get w' (sy_stake a)) = e_prog e) as OV' by (rewrite Hw; ws; auto).
  eapply (turned_wrote _ _ _ _ _ _ (sy_stake a)).
  - apply (wrote_face e (sy_config a) w w' (sy_stake a)); [auto| | |apply (entry_of_val _ _ _ _ _ OV' DV' VV)| |].
    + intros k N. apply face_eq; rewrite Hw; ws; auto. intros _. now rewrite (proj2 (N.eqb_neq _ _) (not_eq_sym N)).
    + unfold page_of. rewrite Hv. now destruct (_ =? _).
    + intros ck' N. destruct (entry_of e w ck' (sy_stake a)) as [y|] eqn:Y; auto. exfalso. apply N.
      apply entry_of_some in Y as (_ & Y1 & Y2). apply entry_of_some in EN as (_ & E1 & E2). rewrite E1 in Y1. injection Y1 as <-.
      eapply home_inj; [exact OK|]. rewrite <- Y2. exact E2.
    + rewrite (page_of_config _ _ _ _ (conj Hco Hc)), EN. eexists. split; [reflexivity|]. cbn [pg_total en_counted].
      pose proof (counted_le _ _ _ _ _ _ ES (conj Hco Hc) EN) as L. cbn [en_counted] in L.
      change (effective (v_del (set_v_del v (set_authority (v_del v) wd)))) with (effective (v_del v)).
      clear - L. lia.
  - cbn [apply]. rewrite bk_entry_of, EN. cbn [obind en_back]. unfold withdrawer_of. rewrite Hvd. reflexivity.
Qed.
Lemma val_turned e cx a w w' : env_ok e -> val_created e cx a w w' ->
  turned e cx (iv_config a) (NewValidator (iv_stake a) (iv_vote a) (withdrawer_of w (iv_vote a))) w w'.
Proof.
  intros OK []. 
  assert (face e w (iv_stake a) = (None, None)) as F0 by (apply face_none; eauto). injection F0 as F1 F2.
  assert (forall ck, entry_of e w ck (iv_stake a) = None) as EN by (intros ck; rewrite entry_of_shown, F2; auto).
  assert (own (get w' (iv_stake a)) = e_prog e) as O' by now rewrite Ho, N.eqb_refl.
  pose proof (Hd (iv_stake a)) as D'. rewrite N.eqb_refl in D'.
  eapply (turned_wrote _ _ _ _ _ _ (iv_stake a)).
  - apply (wrote_face e (iv_config a) w w' (iv_stake a)); [auto| |auto|apply (entry_of_val _ _ _ _ _ O' D' Hk)|auto|].
    + intros k N. apply face_eq; [rewrite Ho|rewrite Hd]; rewrite (proj2 (N.eqb_neq _ _) (not_eq_sym N)); auto.
    + rewrite (page_of_config _ _ _ _ (conj Hco Hc)), EN. eexists. split; [reflexivity|]. cbn [pg_total en_counted effective v_del].
      lia.
  - cbn [apply]. rewrite bk_entry_of, EN, (proj2 (N.eqb_eq _ _) Hk). unfold withdrawer_of. rewrite Hv. reflexivity.
Qed.
Lemma sol_turned e cx a w w' vw : env_ok e -> sane e w -> effsum e w -> c_view cx = Some vw -> sol_created e cx a w w' ->
  turned e cx (is_config a) (NewStaker (is_stake a) (is_native a) (vw_vote vw) (vw_withdrawer vw) (vw_effective vw)) w w'.
Proof.
  intros OK SN ES VW []. rewrite VW in Hvw. injection Hvw as <-.
  assert (is_stake a <> is_val a) as NE by (intros X; rewrite X in Hsd; congruence).
  assert (au = vw_withdrawer vw) as ->.
  { destruct Hau as [[_ E]|[E _]]; [auto|]. exfalso. apply E.
    assert (pda e (is_override a)) as P by (rewrite Hov; right; right; right; eauto).
    destruct (N.eq_dec (own (get w (is_override a))) (e_prog e)) as [OO|OO]; [|apply (sane_pda _ _ SN _ P OO)].
    destruct (sane_kind _ _ SN _ OO) as [[b D]|[[c' D]|[[v' D]|[s' D]]]].
    - destruct (sane_raw _ _ SN _ _ OO D) as [_ X]. destruct (X P) as [-> _]. auto.
    - destruct (sane_cfg _ _ SN _ c' (conj OO D)) as [X _]. contradiction.
    - destruct (sane_val _ _ SN _ v' (conj OO D)) as (ck & _ & X & _). rewrite Hov in X. symmetry in X.
      now apply (ok_val_over e OK) in X.
    - destruct (sane_sol _ _ SN _ s' (conj OO D)) as (ck & _ & X & _). rewrite Hov in X. symmetry in X.
      now apply (ok_sol_over e OK) in X. }
  assert (is_val a = e_val e (vote (v_del v)) (is_config a)) as VV.
  { destruct (sane_val _ _ SN _ v (conj Hvo Hv)) as (ck' & c' & E & _). rewrite Hvk in E.
    destruct (ok_val_inj e OK _ _ _ _ E) as [<- <-]. auto. }
  pose proof (entry_of_val _ _ _ _ _ Hvo Hv VV) as EV.
  assert (face e w (is_stake a) = (None, None)) as F0.
  { apply face_none. eauto. }
  injection F0 as F1 F2.
  assert (forall ck, entry_of e w ck (is_stake a) = None) as EN by (intros ck; rewrite entry_of_shown, F2; auto).
  set (s := SStake (Del 0 0 0 (vw_withdrawer vw) (vw_vote vw) 0 0) (vw_effective vw) (is_native a)) in *.
  set (m := setd (seto w (is_stake a) (e_prog e)) (is_stake a) (DSol s)).
  assert (own (get m (is_stake a)) = e_prog e) as Om by (unfold m; ws; now rewrite N.eqb_refl).
  assert (dat (get m (is_stake a)) = DSol s) as Dm by (unfold m; ws; now rewrite N.eqb_refl).
  assert (forall k, k <> is_stake a -> own (get m k) = own (get w k) /\ dat (get m k) = dat (get w k)) as MM.
  { intros k N. unfold m. ws. rewrite (proj2 (N.eqb_neq _ _) (not_eq_sym N)). auto. }
  assert (wrote e (is_config a) w m (is_stake a) (Entry 0 0 0 (vw_withdrawer vw) (vw_vote vw) (Native (vw_effective vw) (is_native a)))) as W1.
  { apply (wrote_face e (is_config a) w m (is_stake a)); [auto| |auto|apply (entry_of_sol e m (is_config a) _ s Om Dm Hk)|auto|].
    - intros k N. apply face_eq; [now apply MM|intros _; now apply MM].
    - rewrite (page_of_config _ _ _ _ (conj Hco Hc)), EN. eexists. split; [reflexivity|]. cbn [pg_total en_counted]. lia. }
  assert (own (get w' (is_val a)) = e_prog e) as Ov' by (rewrite Ho; now rewrite (proj2 (N.eqb_neq _ _) NE)).
  assert (dat (get w' (is_val a)) = DVal (set_v_total v (v_total v + vw_effective vw))) as Dv' by now rewrite Hd, N.eqb_refl.
  assert (config_at e m (is_config a) c) as CM.
  { assert (is_config a <> is_stake a) as N by (intros X; rewrite <- X, Hc in Hsd; discriminate).
    destruct (MM _ N) as [A B]. split; congruence. }
  assert (own (get m (is_val a)) = e_prog e /\ dat (get m (is_val a)) = DVal v) as [Ovm Dvm].
  { destruct (MM (is_val a)) as [A B]; [auto|]. split; congruence. }
  pose proof (entry_of_val _ _ _ _ _ Ovm Dvm VV) as EVm.
  assert (wrote e (is_config a) m w' (is_val a) (Entry (staked (v_del v)) (effective (v_del v)) (cooldown (v_del v)) (authority (v_del v))
            (vote (v_del v)) (Stakers (v_total v + vw_effective vw) (v_min v)))) as W2.
  { apply (wrote_face e (is_config a) m w' (is_val a)); [auto| | |apply (entry_of_val _ _ _ _ _ Ov' Dv' VV)| |].
    - intros k N. apply not_eq_sym in N. destruct (N.eq_dec k (is_stake a)) as [->|NK].
      + apply face_eq.
        * rewrite Ho, N.eqb_refl. auto.
        * intros _. rewrite Hd, (proj2 (N.eqb_neq _ _) N), N.eqb_refl, Dm. reflexivity.
      + destruct (MM k NK) as [A B]. apply not_eq_sym in NK. apply face_eq.
        * rewrite A, Ho. now rewrite (proj2 (N.eqb_neq _ _) NK).
        * intros _. rewrite B, Hd. now rewrite (proj2 (N.eqb_neq _ _) N), (proj2 (N.eqb_neq _ _) NK).
    - unfold page_of. rewrite Dvm. now destruct (_ =? _).
    - intros ck' N. destruct (entry_of e m ck' (is_val a)) as [y|] eqn:Y; auto. exfalso. apply N.
      apply entry_of_some in Y as (_ & Y1 & Y2). apply entry_of_some in EVm as (_ & E1 & E2). rewrite E1 in Y1. injection Y1 as <-.
      eapply home_inj; [exact OK|]. rewrite <- Y2. exact E2.
    - rewrite (page_of_config _ _ _ _ CM), EVm. eexists. split; [reflexivity|]. cbn [pg_total en_counted].
      pose proof (counted_le _ _ _ _ _ _ ES (conj Hco Hc) EV) as L. cbn [en_counted] in L. clear - L. lia. }
  destruct W1 as [A1 A2], W2 as [B1 B2]. split.
  - cbn [apply]. rewrite !bk_entry_of, EN, <- Hvk, EV. eexists. split; [reflexivity|].
    eapply same_trans; [|apply same_sym, B1]. apply write_same. apply same_sym, A1.
  - intros ck' N. eapply same_trans; [apply B2; auto|apply A2; auto].
Qed.

Lemma request_turned e cx c w w' : env_ok e -> inv e w -> wf_ctx e cx -> did e cx w w' c ->
  turned e cx (fst (request w cx c)) (snd (request w cx c)) w w'.
Proof.
  intros OK IV WC H. pose proof (i_sane _ _ IV) as SN. pose proof (i_eff _ _ IV) as ES.
  destruct H as [a s au cd b sy du H|a H|a n v H _|a H|a H|a n v H _|a t H|a f H|a H|a n s H _|a H|a n H|a n s H _|a n H|a n H|a H];
    cbn [request fst snd].
  - now apply config_turned.
  - now apply val_turned.
  - now apply staked_turned.
  - apply turned_idle. eapply held_idle; eauto.
  - apply turned_idle. destruct H. eapply harvested_idle; eauto.
  - now apply slashed_turned.
  - pose proof (authority_turned _ _ _ _ _ _ H) as X. destruct t; exact X.
  - now apply updated_turned.
  - pose proof H as [c vw]. rewrite Hvw. cbn. now apply sol_turned.
  - now apply staked_turned.
  - assert (exists vw, c_view cx = Some vw) as [vw V] by (destruct H; eauto). rewrite V. cbn. now apply harvested_sol_turned.
  - now apply unstaked_turned.
  - now apply slashed_turned.
  - now apply moved_turned.
  - now apply overridden_turned.
  - now apply synced_turned.
Qed.
Lemma turn_step e ck w ev w' : env_ok e -> inv e w -> step e w ev w' ->
  exists b', turn e ck w ev (book_of e w ck) = Some b' /\ same_book b' (book_of e w' ck).
Proof.
  intros OK IV ST. destruct ST as [w cx c w' WC WF R|w w' R].
  - apply run_ok in R as (_ & D & _). pose proof (request_turned _ _ _ _ _ OK IV WC D) as [T1 T2].
    cbn [turn]. destruct (request w cx c) as [ck' o]. cbn [fst snd] in *.
    destruct (N.eqb_spec ck' ck) as [->|NE]; [exact T1|]. exists (book_of e w ck). split; [auto|].
    apply same_sym, T2. auto.
  - exists (book_of e w ck). split; [reflexivity|]. apply same_sym, (rely_idle _ _ _ R).
Qed.
Lemma turn_same e ck w ev b b' : same_book b b' -> osame (turn e ck w ev b) (turn e ck w ev b').
Proof.
  intros S. destruct ev; cbn [turn]; [|exact S]. destruct (request w cx c) as [ck' o]. destruct (ck' =? ck); [|exact S].
  now apply apply_same.
Qed.
Lemma genesis_blank e w ck : genesis e w -> same_book (book_of e w ck) blank.
Proof.
  intros G. assert (forall k, face e w k = (None, None)) as F.
  { intros k. apply face_none. intros O. destruct (gen_owned _ _ G k O) as [[n ->] _]. eauto. }
  split; [now injection (F ck)|]. intros k. rewrite bk_entry_of, entry_of_shown. injection (F k) as _ ->. reflexivity.
Qed.

(** ** Who signs decides whether, not what *)
Definition agree {A} (x y : option A) : Prop := match x, y with Some a, Some b => a = b | _, _ => True end.
Lemma agree_refl {A} (x : option A) : agree x x.
Proof. destruct x; simpl; auto. Qed.
Lemma agree_allow {A} c c' (x : option A) : agree (allow c x) (allow c' x).
Proof. destruct c, c', x; simpl; auto. Qed.
Lemma agree_bind {A B} (x : option A) (f g : A -> option B) : (forall a, agree (f a) (g a)) -> agree (obind x f) (obind x g).
Proof. destruct x; simpl; auto. Qed.
Lemma apply_agree s s' addr b o : agree (apply s addr b o) (apply s' addr b o).
Proof.
  destruct o; cbn [apply]; try apply agree_refl.
  - apply agree_bind. intros p. apply agree_bind. intros en. apply agree_allow.
  - apply agree_bind. intros p. apply agree_bind. intros en. apply agree_allow.
  - apply agree_bind. intros p. apply agree_bind. intros en. apply agree_allow.
  - apply agree_bind. intros p. apply agree_bind. intros en. destruct (en_back en); [apply agree_allow|apply agree_refl].
  - apply agree_bind. intros p. apply agree_allow.
  - apply agree_bind. intros p. apply agree_allow.
  - apply agree_bind. intros p. apply agree_allow.
Qed.
Lemma snoc_inv {A} (l l' : list A) x x' : l ++ [x] = l' ++ [x'] -> l = l' /\ x = x'.
Proof. apply app_inj_tail. Qed.
Lemma asked_inv e ck w0 l w : env_ok e -> genesis e w0 -> asked e ck w0 l w -> inv e w.
Proof.
  intros OK G H. induction H as [|l w cx c w' o H IH ST _ _|l w cx c w' ck' o H IH ST _ _|l w w' H IH ST].
  - now apply inv_genesis.
  - eapply inv_step; eauto.
  - eapply inv_step; eauto.
  - eapply inv_step; eauto.
Qed.
(** The book is a function of the operations. *)
Inductive built (addr : pubkey -> pubkey) : list op -> book -> Prop :=
| built_nil b : same_book b blank -> built addr [] b
| built_snoc l b s o b' b'' : built addr l b -> apply s addr b o = Some b' -> same_book b' b'' -> built addr (l ++ [o]) b''.
Lemma built_same addr l b b' : built addr l b -> same_book b b' -> built addr l b'.
Proof.
  intros H S. destruct H as [b Z|l b s o b1 b2 H A Z].
  - constructor. eapply same_trans; [apply same_sym, S|exact Z].
  - econstructor; [exact H|exact A|]. eapply same_trans; eauto.
Qed.
Lemma built_fun addr l b b' : built addr l b -> built addr l b' -> same_book b b'.
Proof.
  intros H. revert b'. induction H as [b Z|l b s o b1 b2 H IH A Z]; intros b' H'.
  - inversion H' as [x Z'|]; subst; [eapply same_trans; [exact Z|now apply same_sym]|]. destruct l; discriminate.
  - inversion H' as [x Z'|l' c s' o' c1 c2 H'' A' Z' E]; subst; [destruct l; discriminate|].
    apply snoc_inv in E as [-> ->]. pose proof (IH _ H'') as S.
    pose proof (apply_same s addr _ _ o S) as X. rewrite A in X. apply osame_some_l in X as (d & X1 & X2).
    pose proof (apply_agree s s' addr c o) as Y. rewrite X1, A' in Y. simpl in Y. subst d.
    eapply same_trans; [apply same_sym, Z|]. eapply same_trans; [exact X2|exact Z'].
Qed.
Lemma asked_built e ck w0 l w : env_ok e -> genesis e w0 -> asked e ck w0 l w ->
  built (fun v => e_val e v ck) l (book_of e w ck).
Proof.
  intros OK G H. induction H as [|l w cx c w' o H IH ST RQ NI|l w cx c w' ck' o H IH ST RQ EL|l w w' H IH ST].
  - constructor. now apply genesis_blank.
  - pose proof (asked_inv _ _ _ _ _ OK G H) as IV. destruct (turn_step _ ck _ _ _ OK IV ST) as (b' & T & S).
    cbn [turn] in T. rewrite RQ, N.eqb_refl in T. econstructor; eauto.
  - pose proof (asked_inv _ _ _ _ _ OK G H) as IV. destruct (turn_step _ ck _ _ _ OK IV ST) as (b' & T & S).
    cbn [turn] in T. rewrite RQ in T. eapply built_same; [exact IH|].
    destruct (N.eqb_spec ck' ck) as [->|NE]; [destruct EL as [EL| ->]; [contradiction|]|]; injection T as <-; exact S.
  - pose proof (asked_inv _ _ _ _ _ OK G H) as IV. destruct (turn_step _ ck _ _ _ OK IV ST) as (b' & T & S).
    injection T as <-. eapply built_same; eauto.
Qed.
