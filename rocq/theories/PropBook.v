(** C81: the program keeps the staking book. *)
From Verif Require Import Base Types Layout Instr Math External Processor Runtime History Spec SpecBook
  WorldLemmas Effects Handlers Evolve Sane Wf Arith Totals Nets Caps Stakers Deposits Inv Books Demo.

(** ** C81 *)
(** A successful instruction is allowed by the book and turns it as the book says;
    nothing else turns it. *)
Theorem C81_step e ck w ev w' : env_ok e -> reachable e w -> step e w ev w' ->
  exists b', turn e ck w ev (book_of e w ck) = Some b' /\ same_book b' (book_of e w' ck).
Proof. intros OK R ST. apply turn_step; auto. now apply inv_reachable. Qed.
Print Assumptions C81_step.
(** What the book does not allow, the program refuses. *)
Theorem C81_refused e w cx c ck o w' : env_ok e -> reachable e w -> wf_ctx e cx -> wf_call c ->
  request w cx c = (ck, o) -> apply (signed cx) (fun v => e_val e v ck) (book_of e w ck) o = None ->
  run e cx c w <> Ok w'.
Proof.
  intros OK R WX WC RQ AP RN. destruct (C81_step e ck w (Do cx c) w' OK R) as (b' & T & _); [now constructor|].
  cbn [turn] in T. rewrite RQ, N.eqb_refl, AP in T. discriminate.
Qed.
Print Assumptions C81_refused.
(** The book kept from the instructions alone, from a blank one, is the one the
    accounts show at any time. *)
Theorem C81_history e ck w0 tr w : env_ok e -> genesis e w0 -> steps e w0 tr w ->
  exists b, kept e ck w0 blank w b /\ same_book b (book_of e w ck).
Proof.
  intros OK G H. induction H as [w0|w0 tr w ev w' H IH ST].
  - exists blank. split; [constructor|]. apply same_sym. now apply genesis_blank.
  - destruct (IH G) as (b & K & S).
    destruct (C81_step e ck w ev w' OK (ex_intro _ w0 (ex_intro _ tr (conj G H))) ST) as (b' & T & S').
    pose proof (turn_same e ck w ev _ _ (same_sym _ _ S)) as X. rewrite T in X. apply osame_some_l in X as (b2 & X1 & X2).
    exists b2. split; [econstructor; eauto|]. eapply same_trans; [apply same_sym, X2|exact S'].
Qed.
Print Assumptions C81_history.
Theorem C81_kept e ck w0 w b : env_ok e -> genesis e w0 -> kept e ck w0 blank w b -> same_book b (book_of e w ck).
Proof.
  intros OK G H. assert (inv e w /\ same_book b (book_of e w ck)) as [_ X]; [|exact X].
  induction H as [|w b ev w' b' H [IV IH] ST T].
  - split; [now apply inv_genesis|]. apply same_sym. now apply genesis_blank.
  - split; [eapply inv_step; eauto|]. destruct (turn_step e ck w ev w' OK IV ST) as (b2 & T2 & S2).
    pose proof (turn_same e ck w ev _ _ IH) as X. rewrite T, T2 in X. eapply same_trans; [exact X|exact S2].
Qed.
Print Assumptions C81_kept.
(** The book depends on the operations alone: not on rewards, on other configs, on
    other programs, on who paid or signed, nor on where the histories started. *)
Theorem C81_alone e ck w1 w1' w2 w2' l : env_ok e -> genesis e w1 -> genesis e w2 ->
  asked e ck w1 l w1' -> asked e ck w2 l w2' -> same_book (book_of e w1' ck) (book_of e w2' ck).
Proof.
  intros OK G1 G2 A1 A2. apply (built_fun (fun v => e_val e v ck) l).
  - exact (asked_built e ck w1 l w1' OK G1 A1).
  - exact (asked_built e ck w2 l w2' OK G2 A2).
Qed.
Print Assumptions C81_alone.

(** *** A history in which every kind of operation but one happens *)
Fixpoint keep (ck : pubkey) (w : world) (b : book) (l : list act) : option (world * book) :=
  match l with
  | [] => Some (w, b)
  | a :: l => match do w a, turn denv ck w (event_of a) b with Some w', Some b' => keep ck w' b' l | _, _ => None end
  end.
Lemma keep_kept ck w b l w' b' : inv denv w -> kept denv ck world0 blank w b -> keep ck w b l = Some (w', b') ->
  kept denv ck world0 blank w' b'.
Proof.
  revert w b. induction l as [|a l IH]; cbn [keep]; intros w b IV K H; [injection H as <- <-; auto|].
  destruct (do w a) as [w1|] eqn:D; [|discriminate]. destruct (turn denv ck w (event_of a) b) as [b1|] eqn:T; [|discriminate].
  pose proof (do_step _ _ _ (i_wf _ _ IV) D) as ST. eapply IH; [| |exact H].
  - eapply inv_step; eauto using denv_ok.
  - econstructor; eauto.
Qed.
Definition book_after (l : list act) : book := match keep kcfg world0 blank l with Some (_, b) => b | None => blank end.
Example C81_case : exists w, kept denv kcfg world0 blank w (book_after story) /\
  bk_entry (book_after story) ksol1 = Some (Entry 1200 910 0 bob vote2 (Native 700 nat1)) /\
  bk_entry (book_after story) ksol2 = Some (Entry 350 350 6000 bob vote2 (Native 5000 nat2)) /\
  bk_entry (book_after story) kval1 = Some (Entry 500 65 0 dave vote1 (Stakers 0 50)) /\
  bk_entry (book_after story) kval2 = Some (Entry 0 0 0 dave vote2 (Stakers 5700 0)) /\
  bk_page (book_after story) = Some (Page gov slasher kvtok 1000 5000 100 docs 1325).
Proof.
  assert (match keep kcfg world0 blank story with Some _ => True | None => False end) as X by (vm_compute; exact I).
  unfold book_after at 1. destruct (keep kcfg world0 blank story) as [[w b]|] eqn:E; [|contradiction].
  exists w. split.
  - eapply (keep_kept kcfg world0 blank story); [|constructor|exact E]. apply inv_reachable; [apply denv_ok|apply world0_reachable].
  - clear. vm_compute. auto 8.
Qed.

(** *** The same operations with and without rewards *)
Definition idleb (o : op) : bool := match o with Idle => true | _ => false end.
Definition op_in (ck : pubkey) (w : world) (a : act) : list op :=
  match a with
  | Call cx c => let (ck', o) := request w cx c in if (ck' =? ck) && negb (idleb o) then [o] else []
  | _ => []
  end.
Fixpoint ops (ck : pubkey) (w : world) (done : list op) (l : list act) : option (world * list op) :=
  match l with
  | [] => Some (w, done)
  | a :: l => match do w a with Some w' => ops ck w' (done ++ op_in ck w a) l | None => None end
  end.
Lemma ops_asked ck w done l w' done' : inv denv w -> asked denv ck world0 done w -> ops ck w done l = Some (w', done') ->
  asked denv ck world0 done' w'.
Proof.
  revert w done. induction l as [|a l IH]; cbn [ops]; intros w done IV A H; [injection H as <- <-; auto|].
  destruct (do w a) as [w1|] eqn:D; [|discriminate].
  pose proof (do_step _ _ _ (i_wf _ _ IV) D) as ST. eapply IH; [|clear H IH|exact H].
  { eapply inv_step; eauto using denv_ok. }
  destruct a as [x c|? ? ?|? ?]; cbn [op_in event_of] in *.
  - destruct (request w x c) as [ck' o] eqn:RQ. destruct (N.eqb_spec ck' ck) as [->|NE]; cbn [andb].
    + destruct (idleb o) eqn:IB; cbn [negb].
      * rewrite app_nil_r. eapply asked_idle; [exact A|exact ST|exact RQ|]. right. destruct o; try discriminate. reflexivity.
      * eapply asked_here; [exact A|exact ST|exact RQ|]. intros ->. discriminate.
    + rewrite app_nil_r. eapply asked_idle; [exact A|exact ST|exact RQ|]. auto.
  - rewrite app_nil_r. eapply asked_other; eauto.
  - rewrite app_nil_r. eapply asked_other; eauto.
Qed.
Lemma ops_world ck w done l : match ops ck w done l with Some (w', _) => Some w' | None => None end = after w l.
Proof.
  unfold after. revert w done. induction l as [|a l IH]; intros w done; cbn [ops play]; auto.
  destruct (do w a) as [w'|]; auto.
Qed.
Definition asks (l : list act) : list op := match ops kcfg world0 [] l with Some (_, o) => o | None => [] end.
Lemma script_asked l : runs l = true -> asked denv kcfg world0 (asks l) (at_end l).
Proof.
  intros R. pose proof (ops_world kcfg world0 [] l) as W. unfold runs, at_end, asks in *.
  destruct (ops kcfg world0 [] l) as [[w o]|] eqn:E; rewrite <- W in *; [|discriminate].
  eapply (ops_asked kcfg world0 []); [|constructor|exact E]. apply inv_reachable; [apply denv_ok|apply world0_reachable].
Qed.
Definition quiet : list act :=
  setup ++
  [ harvest_sol nat1 bob vote1 alice vote1 alice None (View vote1 bob 1000);
    harvest_sol nat1 bob vote1 alice vote2 dave (Some carol) (View vote2 bob 700);
    init_sol nat2 vote2 bob 5000; move nat1 nat2 bob 800;
    unstake ksol2 bob btok 400 5000 0; donate 60; slash_sol nat2 bob 50;
    Set_ vote1 (DVote dave); sync_auth vote1; override vote1 dave 50 ].
Example C81_alone_case : asked denv kcfg world0 (asks story) (at_end story) /\
  asked denv kcfg world0 (asks story) (at_end quiet) /\ length (asks story) = 14%nat /\
  lam (get (at_end story) bob) = lam (get (at_end quiet) bob) + 1509899.
Proof.
  split; [apply script_asked, story_runs|]. split.
  - assert (asks story = asks quiet) as -> by (vm_compute; reflexivity). apply script_asked. vm_compute. reflexivity.
  - split; vm_compute; reflexivity.
Qed.

(** *** Refusals: a stranger slashes; the owner takes out more than the terms allow *)
Definition stranger_slash : ctx * call :=
  (cx [carol] 0 None 0, CSlashSolStakerStake (SlashA kcfg ksol2 bob carol kvtok kvhr kpda kmint (e_token denv)) 50).
Definition greedy : ctx * call :=
  (cx [bob] 9000 None 0,
   CUnstakeTokens (UnstakeA kcfg kpool kptok ksol2 bob kvtok kpda kvhr kmint btok (e_token denv)) 176).
Definition refuses (p : ctx * call) : bool :=
  let (ck, o) := request (at_end story) (fst p) (snd p) in
  match apply (signed (fst p)) (fun v => e_val denv v ck) (book_of denv (at_end story) ck) o with None => true | _ => false end.
Example C81_refused_case : reachable denv (at_end story) /\
  request (at_end story) (fst stranger_slash) (snd stranger_slash) = (kcfg, Slash ksol2 50) /\
  request (at_end story) (fst greedy) (snd greedy) = (kcfg, Withdraw ksol2 176 9000) /\
  refuses stranger_slash = true /\ refuses greedy = true /\
  refuses (fst greedy, CUnstakeTokens (UnstakeA kcfg kpool kptok ksol2 bob kvtok kpda kvhr kmint btok (e_token denv)) 175) = false.
Proof.
  split; [apply at_end_reachable, story_runs|]. split; [vm_compute; reflexivity|]. split; [vm_compute; reflexivity|].
  split; [vm_compute; reflexivity|]. split; vm_compute; reflexivity.
Qed.
