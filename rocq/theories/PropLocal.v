(** C70, C71: an instruction sees and changes only the accounts passed to it, and
    instructions that share no written account can be executed in any order. *)
From Coq Require Import Permutation.
From Verif Require Import Base Types Layout Instr Math External Processor Runtime History Spec
  WorldLemmas Effects Handlers Declared Touches SpecLocal Local Demo PropAuth.

(** ** C70 *)

(** Whatever the bytes and the account list: the outcome (success, error value or
    abort) and the new contents of the listed accounts depend only on the listed
    accounts. *)
Theorem C70_local e x w1 w2 : agree (su_keys x) w1 w2 ->
  alike (agree (su_keys x)) (outcome e x w1) (outcome e x w2).
Proof.
  intros A. unfold outcome, process_instruction.
  eapply alike_bind_eq; [reflexivity|intros i _].
  eapply alike_bind_eq; [reflexivity|intros c Ec].
  apply run_local; auto. eapply accounts_named; eauto.
Qed.
Print Assumptions C70_local.

(** An account that is not listed, or not passed as writable, keeps its lamports,
    owner and contents. *)
Theorem C70_frame e x w w' k : outcome e x w = Ok w' ->
  ~ In k (su_keys x) \/ writable (su_ctx x) k = false -> get w' k = get w k.
Proof.
  unfold outcome, process_instruction. intros H N. apply bind_ok in H as (i & _ & H). apply bind_ok in H as (c & Ec & H).
  unfold run in H. apply bind_ok in H as (w1 & Eh & H). apply bind_ok in H as (u & Er & H). injection H as <-.
  destruct N as [N|N].
  - apply handler_did, touches_did in Eh. apply Eh. intros I. apply N.
    eapply accounts_named; [exact Ec|]. now apply changes_named.
  - unfold runtime_check in Er. apply bind_ok in Er as (v & _ & Er). apply require_ok in Er.
    rewrite readonly_spec in Er. destruct (Er k) as [->|X]; [reflexivity|congruence].
Qed.
Print Assumptions C70_frame.

(* A harvest of validator 1 in a deployment with two configs: it succeeds, also
   after accounts it does not name were changed at will. *)
Definition harvest1 : submitted :=
  Submit (Ctx [] [kcfg; kval1; alice] 0 None 0) [kcfg; kvhr; kval1; alice] [4].
Example C70_case : let w := at_end two_configs in
  let v := setl (setd w kcfg2 (DRaw [])) bob 0 in
  reachable denv w /\ agree (su_keys harvest1) w v /\ get v kcfg2 <> get w kcfg2 /\ get v bob <> get w bob /\
  match outcome denv harvest1 w with Ok w' => lam (get w alice) < lam (get w' alice) | _ => False end /\
  match outcome denv harvest1 v with Ok w' => lam (get w alice) < lam (get w' alice) | _ => False end.
Proof.
  split; [apply at_end_reachable; vm_compute; reflexivity|].
  split. { intros k I. repeat (destruct I as [<-|I]; [vm_compute; reflexivity|]). destruct I. }
  split; [vm_compute; discriminate|]. split; [vm_compute; discriminate|].
  split; vm_compute; reflexivity.
Qed.

(** ** C71 *)
Lemma after_agree e x ks w1 w2 : incl (su_keys x) ks -> agree ks w1 w2 ->
  agree ks (after_ix w1 (outcome e x w1)) (after_ix w2 (outcome e x w2)).
Proof.
  intros I A. assert (agree (su_keys x) w1 w2) as A' by (intros k K; auto).
  pose proof (C70_local e x w1 w2 A') as H.
  destruct (outcome e x w1) as [w1'| |] eqn:E1, (outcome e x w2) as [w2'| |] eqn:E2; simpl in *; try contradiction; auto.
  intros k K. destruct (in_dec N.eq_dec k (su_keys x)) as [J|J]; [auto|].
  rewrite (C70_frame _ _ _ _ k E1), (C70_frame _ _ _ _ k E2) by auto. auto.
Qed.
Lemma after_same e x w1 w2 : same_world w1 w2 -> same_world (after_ix w1 (outcome e x w1)) (after_ix w2 (outcome e x w2)).
Proof. intros S k. apply (after_agree e x (k :: su_keys x) w1 w2); [intros ? ?; simpl; auto|intros ? _; apply S|simpl; auto]. Qed.
(* the accounts of [y] are as before after [x] *)
Lemma after_other e x w k : ~ In k (su_keys x) \/ writable (su_ctx x) k = false -> get (after_ix w (outcome e x w)) k = get w k.
Proof. intros N. destruct (outcome e x w) as [w'| |] eqn:E; simpl; auto. eapply C70_frame; eauto. Qed.
Lemma untouched e x y w : independent x y -> agree (su_keys y) (after_ix w (outcome e x w)) w.
Proof.
  intros I k K. apply after_other. destruct (in_dec N.eq_dec k (su_keys x)) as [J|J]; [right; now apply (I k)|auto].
Qed.
Lemma independent_sym x y : independent x y -> independent y x.
Proof. intros I k A B. destruct (I k B A). auto. Qed.

(** Two independent instructions: each has the outcome it would have alone, in
    either order, and both orders give the same accounts. *)
Theorem C71_commute e x y w : independent x y ->
  let wx := after_ix w (outcome e x w) in
  let wy := after_ix w (outcome e y w) in
  alike (agree (su_keys y)) (outcome e y wx) (outcome e y w) /\
  alike (agree (su_keys x)) (outcome e x wy) (outcome e x w) /\
  same_world (after_ix wx (outcome e y wx)) (after_ix wy (outcome e x wy)).
Proof.
  intros I wx wy.
  split; [apply C70_local, untouched; auto|].
  split; [apply C70_local, untouched; auto using independent_sym|].
  intros k.
  assert (forall a b, independent a b -> (~ In k (su_keys b) \/ writable (su_ctx b) k = false) ->
    get (after_ix (after_ix w (outcome e a w)) (outcome e b (after_ix w (outcome e a w)))) k =
    get (after_ix (after_ix w (outcome e b w)) (outcome e a (after_ix w (outcome e b w)))) k) as M.
  { intros a b J N. rewrite (after_other e b _ k N).
    destruct (in_dec N.eq_dec k (su_keys a)) as [Ka|Ka].
    - apply (after_agree e a (su_keys a)); auto; [intros ? ?; auto|].
      intros z Z. symmetry. apply (untouched e b a w); auto using independent_sym.
    - now rewrite !(after_other e a _ k (or_introl Ka)), (after_other e b _ k N). }
  destruct (in_dec N.eq_dec k (su_keys y)) as [Ky|Ky]; [|apply M; auto].
  destruct (in_dec N.eq_dec k (su_keys x)) as [Kx|Kx].
  - apply M; auto. right. now apply (I k).
  - symmetry. apply M; auto using independent_sym.
Qed.
Print Assumptions C71_commute.

Lemma all_same e xs : forall w1 w2, same_world w1 w2 -> same_world (all_after e xs w1) (all_after e xs w2).
Proof. induction xs as [|x xs IH]; intros w1 w2 S; [exact S|]. simpl. apply IH. now apply after_same. Qed.
Lemma pairs_perm xs ys : Permutation xs ys -> ForallOrdPairs independent xs -> ForallOrdPairs independent ys.
Proof.
  induction 1 as [|x l l' P IH|x y l|l l' l'' P1 IH1 P2 IH2]; intros F; auto.
  - inversion F as [|? ? F1 F2]; subst. constructor; auto. rewrite Forall_forall in *. intros z Z. apply F1.
    rewrite elem_of_list_In in *. eapply Permutation_in; [symmetry; exact P|exact Z].
  - inversion F as [|? ? F1 F2]; subst. inversion F2 as [|? ? F3 F4]; subst. inversion F1; subst.
    constructor; [constructor; auto using independent_sym|constructor; auto].
Qed.

(** Any number of pairwise independent instructions: every order gives the same
    accounts. *)
Theorem C71_any_order e xs ys w : Permutation xs ys -> ForallOrdPairs independent xs ->
  same_world (all_after e xs w) (all_after e ys w).
Proof.
  intros P. revert w. induction P as [|x l l' P IH|x y l|l l' l'' P1 IH1 P2 IH2]; intros w F.
  - intros k. reflexivity.
  - simpl. apply IH. now inversion F.
  - simpl. apply all_same. inversion F as [|? ? F1 F2]; subst. inversion F1; subst.
    apply C71_commute. auto.
  - intros k. rewrite (IH1 w F k). apply IH2. eapply pairs_perm; eauto.
Qed.
Print Assumptions C71_any_order.

(* The same harvest, an update of the other config, and one that fails. *)
Definition update2 : submitted :=
  Submit (Ctx [gov] [kcfg2] 0 None 0) [kcfg2; gov] (pack (IUpdateConfig (CooldownTimeSeconds 7))).
Definition no_such : submitted := Submit (Ctx [] [kval2] 0 None 0) [bob; kval2; vote2] (pack IValidatorSyncAuthority).
Definition succeeds (r : result world) : bool := match r with Ok _ => true | _ => false end.
Example C71_case : let w := at_end two_configs in
  ForallOrdPairs independent [harvest1; update2; no_such] /\
  map (fun x => succeeds (outcome denv x w)) [harvest1; update2; no_such] = [true; true; false] /\
  let w' := all_after denv [no_such; update2; harvest1] w in
  lam (get w alice) < lam (get w' alice) /\ cfg_cooldown (cfg_of w' kcfg2) = 7 /\ cfg_cooldown (cfg_of w kcfg2) = 10.
Proof.
  assert (forall x y, forallb (fun k => negb (existsb (N.eqb k) (su_keys y)) || negb (writable (su_ctx x) k) && negb (writable (su_ctx y) k))
                       (su_keys x) = true -> independent x y) as D.
  { intros x y B k Kx Ky. rewrite forallb_forall in B. specialize (B k Kx).
    assert (existsb (N.eqb k) (su_keys y) = true) as X by (apply existsb_exists; exists k; split; auto; apply N.eqb_refl).
    rewrite X in B. simpl in B. now destruct (writable (su_ctx x) k), (writable (su_ctx y) k). }
  split. { repeat first [apply FOP_nil | apply FOP_cons | apply Forall_nil; exact I | apply Forall_cons; split | apply D; vm_compute; reflexivity]. }
  split; [vm_compute; reflexivity|]. vm_compute. auto.
Qed.
