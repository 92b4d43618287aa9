(** Observers of the staking contract, the factory, the rewards contract and the minter
    of the vesting contract: their books stay right in every transaction. *)
From Coq Require Import ZArith List Bool String Lia.
From Coq Require Import ZifyBool.
From Verif Require Import Base FMap Decimal Curve World Token Stake Pool Stable Rewards Vest Factory Router System
  TokenProofs SysStake Frame SysFrame Events EventsErase EventsLog EventsExact EventsExact2 EventsReplay.
Import ListNotations.
Open Scope string_scope.
Open Scope list_scope.
Open Scope Z_scope.

(** [hear] is how the observer takes note of one event, [R] says that the notes are right *)
Definition keeps {T} (hear : T -> Addr * Ev -> T) (R : T -> World -> Prop) (w w' : World) (d : Log) : Prop :=
  forall st, R st w -> R (fold_left hear d st) w'.
Lemma keeps_rel {T} (hear : T -> Addr * Ev -> T) (R : T -> World -> Prop) : LogRel (keeps hear R).
Proof.
  constructor.
  - intros w st A. exact A.
  - intros w1 w2 w3 d1 d2 A B st C. rewrite fold_left_app. auto.
Qed.
Lemma deaf {T} (hear : T -> Addr * Ev -> T) pl d : (forall st c v, pl v = true -> hear st (c, v) = st) ->
  Forall (fun x => pl (snd x) = true) d -> forall st, fold_left hear d st = st.
Proof.
  intros E F. induction F as [|[c v] d A F IH]; intros st; simpl; auto. rewrite E; auto.
Qed.
Lemma calm_keeps {T X} (hear : T -> Addr * Ev -> T) (R : T -> World -> Prop) (f : World -> X) pl {A} (m : LST A) :
  (forall st c v, pl v = true -> hear st (c, v) = st) -> (forall st w w', f w' = f w -> R st w -> R st w') ->
  logs (calm f pl) m -> logs (keeps hear R) m.
Proof.
  intros E F G w l a w' l' H. destruct (G _ _ _ _ _ H) as [d [-> [S P]]]. exists d. split; auto.
  intros st B. rewrite (deaf hear pl d E P). eauto.
Qed.
Lemma keeps_lf {T A} (hear : T -> Addr * Ev -> T) (R : T -> World -> Prop) (m : ST World A) :
  (forall w a w', m w = Ok (a, w') -> forall st, R st w -> R st w') -> logs (keeps hear R) (lf m).
Proof. intros E. apply lg_lf. intros w a w' H st B. simpl. eauto. Qed.

Lemma safe_use {A} (P : World -> World -> Prop) (m : ST World A) w a w' : safe P m -> m w = Ok (a, w') -> P w w'.
Proof. intros S H. exact (S _ _ _ H). Qed.
Lemma logs_use {A} Q (m : LST A) w l a w' l' : logs Q m -> m (w, l) = Ok (a, (w', l')) -> exists d, l' = l ++ d /\ Q w w' d.
Proof. intros S H. exact (S _ _ _ _ _ H). Qed.

(** what the token calls leave alone *)
Lemma moved_rest e c t a b x w u w' : tok_transfer e c t a b x w = Ok (u, w') -> w' = set_tok w (w_tok w').
Proof. intros H. apply tok_transfer_moved in H. apply (mv_rest _ _ _ _ _ _ (proj2 H)). Qed.
Lemma minted_rest e c t a x w u w' : tok_mint e c t a x w = Ok (u, w') -> w' = set_tok w (w_tok w').
Proof. intros H. apply tok_mint_minted in H. apply (mt_rest _ _ _ _ _ (proj2 H)). Qed.
Ltac rests :=
  repeat match goal with
  | K : tok_transfer _ _ _ _ _ _ _ = Ok _ |- _ => apply moved_rest in K
  | K : tok_mint _ _ _ _ _ _ = Ok _ |- _ => apply minted_rest in K
  | K : put_stake _ _ _ = Ok _ |- _ => inversion K; subst; clear K
  | K : put_rewards _ _ _ = Ok _ |- _ => inversion K; subst; clear K
  | K : put_vest _ _ _ = Ok _ |- _ => inversion K; subst; clear K
  | K : put_fact _ _ _ = Ok _ |- _ => inversion K; subst; clear K
  end.
Ltac same_part P :=
  match goal with K : ?w1 = set_tok ?w _ |- _ => assert (P w1 = P w) by (rewrite K; reflexivity) end.

(** ** Staking *)
Definition staked_in (w : World) (c u : Addr) : Z :=
  match fget c (w_stake w) with Some s => b_total (s_user s u) | None => 0 end.
Definition total_in (w : World) (c : Addr) : Z :=
  match fget c (w_stake w) with Some s => s_total s | None => 0 end.

(** notes: the user named last, what [u] has staked, what everybody has staked *)
Definition hear_stake (c u : Addr) (st : Z * (Z * Z)) (x : Addr * Ev) : Z * (Z * Z) :=
  let '(cur, (mine, all)) := st in
  match x with
  | (a, Pub t k (VZ n)) =>
      if a =? c then
        if String.eqb t "bond" then
          if String.eqb k "user" then (n, (mine, all))
          else if String.eqb k "amount" then (cur, (mine + ind (u =? cur) n, all + n)) else st
        else if String.eqb t "unbond" then
          if String.eqb k "user" then (n, (mine, all))
          else if String.eqb k "amount" then (cur, (mine - ind (u =? cur) n, all - n)) else st
        else st
      else st
  | _ => st
  end.
Definition right_stake (c u : Addr) (st : Z * (Z * Z)) (w : World) : Prop :=
  fst (snd st) = staked_in w c u /\ snd (snd st) = total_in w c.

Lemma plain_stake c u st a v : plain t_stake v = true -> hear_stake c u st (a, v) = st.
Proof.
  destruct st as [cur [mine all]]. destruct v as [| | | | |t k x]; try reflexivity.
  unfold plain, t_stake, hear_stake. simpl. destruct x; auto. destruct (a =? c); auto.
  destruct (String.eqb t "bond"); [discriminate|]. destruct (String.eqb t "unbond"); [discriminate|]. auto.
Qed.
Lemma same_stake c u st w w' : w_stake w' = w_stake w -> right_stake c u st w -> right_stake c u st w'.
Proof. unfold right_stake, staked_in, total_in. now intros ->. Qed.

Section StakeAtoms.
  Context (c u : Addr).
  Notation QS := (keeps (hear_stake c u) (right_stake c u)).

  Lemma qs_rest e k : touches_stake k = false -> logs QS (lexec e k).
  Proof. intros T. eapply calm_keeps; [apply plain_stake | apply same_stake | now apply calm_stake]. Qed.

  (** a record that replaces another one with the same amounts *)
  Lemma stake_kept st w self s s' : fget self (w_stake w) = Some s -> s_total s' = s_total s ->
    (forall x, b_total (s_user s' x) = b_total (s_user s x)) ->
    right_stake c u st w -> forall w', w_stake w' = fset self s' (w_stake w) -> right_stake c u st w'.
  Proof.
    intros E T B [A1 A2] w' Ew. unfold right_stake, staked_in, total_in in *. rewrite Ew, fget_set.
    destruct (Z.eqb_spec c self) as [->|]; auto. rewrite E in *. rewrite T, B. auto.
  Qed.

  Lemma qs_flow e ca self a b : logs QS (l_stake_create_flow e ca self a b).
  Proof.
    unfold l_stake_create_flow. apply (lg_bind _ (keeps_rel _ _)).
    - apply keeps_lf. unfold stake_create_flow. intros w r w' H st B. rstep H. winv.
      eapply (stake_kept _ _ self); [eassumption| | |exact B|reflexivity]; intros; reflexivity.
    - intros _. apply lg_emit. intros w st B. cbn [fold_left]. rewrite plain_stake; auto.
  Qed.

  (** only the topics "bond" and "unbond" matter *)
  Lemma qs_emit a v : plain t_stake v = true -> logs QS (emit a v).
  Proof. intros E. apply lg_emit. intros w st B. cbn [fold_left]. rewrite plain_stake; auto. Qed.

  Lemma qs_initialize self a lp mb mr m o mc : logs QS (l_stake_initialize self a lp mb mr m o mc).
  Proof.
    unfold l_stake_initialize. apply (lg_bind _ (keeps_rel _ _)).
    - apply keeps_lf. unfold stake_initialize. intros w r w' H st [B1 B2]. rstep H. winv.
      match goal with K : negb (fmem self (w_stake w)) = true |- _ => rename K into F end.
      apply negb_true_iff in F. unfold fmem in F. destruct (fget self (w_stake w)) eqn:G; [discriminate|].
      unfold right_stake, staked_in, total_in in *. simpl. rewrite fget_set.
      destruct (Z.eqb_spec c self) as [->|]; auto. rewrite G in *. simpl. auto.
    - intros _. now apply qs_emit.
  Qed.

  Lemma qs_distribute e ca self a n t : logs QS (l_stake_distribute e ca self a n t).
  Proof.
    unfold l_stake_distribute. intros w l r w' l' H. linv H. rests.
    eexists. split; [rewrite <- !app_assoc; reflexivity|]. intros st B.
    cbn [fold_left app]. rewrite !plain_stake by reflexivity.
    match goal with K : ?z = set_tok _ _ |- right_stake _ _ _ ?z => rewrite K end.
    eapply (stake_kept _ _ self); [eassumption| | |exact B|reflexivity]; intros; reflexivity.
  Qed.

  Lemma qs_pay e self n k t b assets : logs QS (l_pay_rewards e self n k t b assets).
  Proof.
    eapply calm_keeps; [apply plain_stake | apply same_stake |].
    induction assets as [|x tl IH]; simpl; unfold l_transfer; lg (calm_rel w_stake (plain t_stake)) cm_leaf; apply IH.
  Qed.
  Lemma pay_stake e self n k t b assets w l w' l' : l_pay_rewards e self n k t b assets (w, l) = Ok (tt, (w', l')) ->
    w_stake w' = w_stake w.
  Proof.
    assert (Q : logs (calm w_stake (plain t_stake)) (l_pay_rewards e self n k t b assets)).
    { induction assets as [|x tl IH]; simpl; unfold l_transfer; lg (calm_rel w_stake (plain t_stake)) cm_leaf; apply IH. }
    intros H. destruct (Q _ _ _ _ _ H) as [d [_ [E _]]]. exact E.
  Qed.

  Lemma qs_withdraw_rewards e self n : logs QS (l_stake_withdraw_rewards e self n).
  Proof.
    intros w l r w' l' H. unfold l_stake_withdraw_rewards in H. linv H.
    match goal with K : l_pay_rewards _ _ _ _ _ _ _ _ = Ok (?x, _) |- _ => destruct x; pose proof (pay_stake _ _ _ _ _ _ _ _ _ _ _ K) as E;
      destruct (qs_pay _ _ _ _ _ _ _ _ _ _ _ _ K) as [d [Ed Qd]] end. subst. rests.
    eexists. split; [rewrite <- !app_assoc; reflexivity|]. intros st B.
    cbn [app fold_left]. rewrite !plain_stake by reflexivity.
    match goal with K : fget self (w_stake w) = Some ?k |- _ => rename k into kk; rename K into G end.
    eapply (stake_kept _ _ self kk); [rewrite E; exact G| | |apply Qd; exact B|reflexivity]; [reflexivity|].
    intros x. unfold s_user, fgetd. simpl. rewrite fget_set. destruct (Z.eqb_spec x n) as [->|]; reflexivity.
  Qed.

  Lemma qs_bond e ca self n amt : logs QS (l_stake_bond e ca self n amt).
  Proof.
    intros w l r w' l' H. unfold l_stake_bond in H. linv H. rests.
    match goal with K : ?w1 = set_tok w _ |- _ => assert (E : w_stake w1 = w_stake w) by (rewrite K; reflexivity); clear K end.
    repeat match goal with K : add_i _ _ = Ok _ |- _ => apply add_i_ok in K; destruct K as [-> _] end.
    match goal with K : fget self (w_stake w) = Some ?k |- _ => rename k into kk; rename K into G end.
    eexists. split; [rewrite <- !app_assoc; reflexivity|]. intros [cur [mine all]] [B1 B2].
    cbn [app fold_left]. rewrite (plain_stake _ _ _ (s_lp kk)) by reflexivity.
    match goal with |- right_stake _ _ ?x _ => replace x with (if self =? c then (n, (mine + ind (u =? n) amt, all + amt)) else (cur, (mine, all)))
      by (unfold hear_stake; destruct (self =? c); reflexivity) end.
    unfold right_stake, staked_in, total_in in *. cbn [w_stake set_stake fst snd] in *. rewrite E, fget_set.
    rewrite (Z.eqb_sym self c). destruct (Z.eqb_spec c self) as [->|]; cbn [fst snd]; [|auto].
    rewrite G in *. cbn -[ind s_user]. split; [|lia].
    unfold s_user, fgetd in *. cbn -[ind]. rewrite fget_set. destruct (Z.eqb_spec u n) as [->|]; cbn; lia.
  Qed.
  Lemma qs_unbond e ca self n amt ts : logs QS (l_stake_unbond e ca self n amt ts).
  Proof.
    intros w l r w' l' H. unfold l_stake_unbond in H. linv H. rests.
    match goal with K : ?w1 = set_tok w _ |- _ => assert (E : w_stake w1 = w_stake w) by (rewrite K; reflexivity); clear K end.
    repeat match goal with K : sub_i _ _ = Ok _ |- _ => apply sub_i_ok in K; destruct K as [-> _] end.
    match goal with K : fget self (w_stake w) = Some ?k |- _ => rename k into kk; rename K into G end.
    eexists. split; [rewrite <- !app_assoc; reflexivity|]. intros [cur [mine all]] [B1 B2].
    cbn [app fold_left]. rewrite (plain_stake _ _ _ (s_lp kk)) by reflexivity.
    match goal with |- right_stake _ _ ?x _ => replace x with (if self =? c then (n, (mine - ind (u =? n) amt, all - amt)) else (cur, (mine, all)))
      by (unfold hear_stake; destruct (self =? c); reflexivity) end.
    unfold right_stake, staked_in, total_in in *. cbn [w_stake set_stake fst snd] in *. rewrite E, fget_set.
    rewrite (Z.eqb_sym self c). destruct (Z.eqb_spec c self) as [->|]; cbn [fst snd]; [|auto].
    rewrite G in *. cbn -[ind s_user]. split; [|lia].
    unfold s_user, fgetd in *. cbn -[ind]. rewrite fget_set. destruct (Z.eqb_spec u n) as [->|]; cbn; lia.
  Qed.
  Ltac qs_leaf := first
    [ apply qs_initialize | apply qs_emit; reflexivity
    | eapply calm_keeps; [apply plain_stake | apply same_stake | solve [cm_leaf]] ].
  Lemma qs_pool_initialize e a i b x y z : logs QS (l_pool_initialize e a i b x y z).
  Proof. unfold l_pool_initialize, l_deploy_stake_of. lg (keeps_rel (hear_stake c u) (right_stake c u)) qs_leaf. Qed.
  Lemma qs_stable_initialize e a i b x y : logs QS (l_stable_initialize e a i b x y).
  Proof. unfold l_stable_initialize, l_deploy_stake_of. lg (keeps_rel (hear_stake c u) (right_stake c u)) qs_leaf. Qed.
  Lemma qs_create e ca f n i ty a b x : logs QS (l_fact_create e ca f n i ty a b x).
  Proof.
    unfold l_fact_create. lg (keeps_rel (hear_stake c u) (right_stake c u)) qs_leaf;
    first [apply qs_pool_initialize | apply qs_stable_initialize].
  Qed.
  Theorem stake_books e k : logs QS (lexec e k).
  Proof.
    destruct (touches_stake k) eqn:T; [|now apply qs_rest].
    destruct k; try discriminate T; simpl; unfold l_drop;
    try solve [first [apply qs_initialize | apply qs_bond | apply qs_unbond | apply qs_flow | apply qs_distribute
      | apply qs_withdraw_rewards | apply qs_pool_initialize | apply qs_stable_initialize ]].
    apply (lg_bind _ (keeps_rel _ _)); [apply qs_create | intros _; apply lg_ret; apply keeps_rel].
  Qed.
End StakeAtoms.

(** ** Factory *)
Definition pools_in (w : World) (c : Addr) : list Addr :=
  match fget c (w_fact w) with Some f => f_lps f | None => [] end.
(** notes: the pools announced so far *)
Definition hear_fact (c : Addr) (st : list Addr) (x : Addr * Ev) : list Addr :=
  match x with
  | (a, Pub t k (VZ n)) => if (a =? c) && String.eqb t "create" && String.eqb k "liquidity_pool" then st ++ [n] else st
  | _ => st
  end.
Definition right_fact (c : Addr) (st : list Addr) (w : World) : Prop := st = pools_in w c.
Lemma plain_fact c st a v : plain t_fact v = true -> hear_fact c st (a, v) = st.
Proof.
  destruct v as [| | | | |t k x]; try reflexivity. unfold plain, t_fact, hear_fact. simpl. destruct x; auto.
  destruct (String.eqb t "create"); [discriminate|]. now rewrite andb_false_r.
Qed.
Lemma same_fact c st w w' : w_fact w' = w_fact w -> right_fact c st w -> right_fact c st w'.
Proof. unfold right_fact, pools_in. now intros ->. Qed.

Section FactAtoms.
  Context (c : Addr).
  Notation QF := (keeps (hear_fact c) (right_fact c)).
  Lemma qf_calm {A} (m : LST A) : logs (calm w_fact (plain t_fact)) m -> logs QF m.
  Proof. intros G. eapply calm_keeps; [apply plain_fact | apply same_fact | exact G]. Qed.
  Lemma qf_put (m : ST World unit) self : (forall w r w', m w = Ok (r, w') -> exists f f', fget self (w_fact w) = Some f /\
      f_lps f' = f_lps f /\ w_fact w' = fset self f' (w_fact w)) -> logs QF (lf m).
  Proof.
    intros E. apply keeps_lf. intros w r w' H st B. destruct (E _ _ _ H) as [f [f' [G [L W]]]].
    unfold right_fact, pools_in in *. rewrite W, fget_set. destruct (Z.eqb_spec c self) as [->|]; auto. rewrite G in B. congruence.
  Qed.
  Lemma qf_whitelist e ca self u a b : logs QF (lf (fact_update_whitelist e ca self u a b)).
  Proof.
    apply (qf_put _ self). unfold fact_update_whitelist. intros w r w' H. rstep H. winv.
    do 2 eexists. split; [eassumption|]. split; [|reflexivity]. reflexivity.
  Qed.
  Lemma qf_hashes e ca self a b d : logs QF (lf (fact_update_hashes e ca self a b d)).
  Proof.
    apply (qf_put _ self). unfold fact_update_hashes. intros w r w' H. rstep H. winv.
    do 2 eexists. split; [eassumption|]. split; [|reflexivity]. reflexivity.
  Qed.
  Lemma qf_update e ca self a b : logs QF (lf (fact_update e ca self a b)).
  Proof.
    apply (qf_put _ self). unfold fact_update, put_wasm. intros w r w' H. rstep H. winv.
    do 2 eexists. split; [eassumption|]. split; [|reflexivity]. reflexivity.
  Qed.

  Lemma qf_initialize e self a x1 x2 x3 x4 wl d : logs QF (l_fact_initialize e self a x1 x2 x3 x4 wl d).
  Proof.
    intros w l r w' l' H. unfold l_fact_initialize in H. linv H. rests.
    match goal with K : mget w = Ok _ |- _ => injection K as <- <- end.
    match goal with K : deploy _ _ ?x = Ok (_, ?y) |- _ => assert (E1 : same w_fact x y) by (revert K; apply (safe_use (same w_fact)); sm) end.
    match goal with K : l_hop_initialize _ _ _ (?x, l) = Ok (_, (?y, ?z)) |- _ => rename y into wb; rename z into lb;
      assert (D : exists d, lb = l ++ d /\ calm w_fact (plain t_fact) x wb d)
      by (revert K; apply (logs_use (calm w_fact (plain t_fact))); unfold l_hop_initialize; lg (calm_rel w_fact (plain t_fact)) cm_leaf) end.
    destruct D as [d1 [-> [E2 P]]]. unfold same in E1. rewrite E1 in E2.
    match goal with K : negb (fmem self (w_fact w)) = true |- _ => rename K into F end.
    apply negb_true_iff in F. unfold fmem in F. destruct (fget self (w_fact w)) eqn:G; [discriminate|].
    eexists. split; [rewrite <- !app_assoc; reflexivity|]. intros st B.
    rewrite fold_left_app, (deaf _ (plain t_fact) d1 (plain_fact c) P).
    cbn [app fold_left]. rewrite !plain_fact by reflexivity.
    unfold right_fact, pools_in in *. simpl. rewrite E2, fget_set. destruct (Z.eqb_spec c self) as [->|]; auto. rewrite G in B. auto.
  Qed.
  Lemma qf_create e ca f n i ty a b x : logs QF (l_fact_create e ca f n i ty a b x).
  Proof.
    intros w l r w' l' H. unfold l_fact_create in H. linv H. rests.
    match goal with K : deploy _ _ ?x = Ok (_, ?y) |- _ => assert (E1 : same w_fact x y) by (revert K; apply (safe_use (same w_fact)); sm) end.
    unfold same in E1.
    match goal with K : fget f (w_fact w) = Some ?k |- _ => rename k into kk; rename K into G end.
    match goal with K : match ty with _ => _ end (?w1, l) = Ok (_, (?w2, ?l2)) |- _ => rename w2 into wb; rename l2 into lb;
      assert (D : exists d, lb = l ++ d /\ w_fact wb = w_fact w /\ forall st, fold_left (hear_fact c) d st = st); [|clear K] end.
    { match goal with K : match ty with _ => _ end (?w1, l) = Ok (_, (?w2, ?l2)) |- _ =>
        assert (Q : exists d, l2 = l ++ d /\ calm w_fact (plain t_fact) w1 w2 d)
          by (destruct ty; [eapply cfact_pool_initialize in K | eapply cfact_stable_initialize in K]; exact K) end.
      destruct Q as [d [-> [E P]]]. exists d. split; auto. split; [congruence|]. apply (deaf _ (plain t_fact)); auto. apply plain_fact. }
    destruct D as [d [-> [E P]]].
    eexists. split; [rewrite <- !app_assoc; reflexivity|]. intros st B. rewrite fold_left_app, P.
    cbn [fold_left]. unfold hear_fact. simpl.
    unfold right_fact, pools_in in *. simpl. rewrite E, fget_set, (Z.eqb_sym f c).
    destruct (Z.eqb_spec c f) as [->|]; auto. rewrite G in B. subst st. reflexivity.
  Qed.
  Theorem fact_books e k : logs QF (lexec e k).
  Proof.
    destruct (touches_fact k) eqn:T; [|now apply qf_calm, calm_fact].
    destruct k; try discriminate T; simpl; unfold l_drop;
    try solve [first [apply qf_initialize | apply qf_whitelist | apply qf_hashes | apply qf_update ]].
    apply (lg_bind _ (keeps_rel _ _)); [apply qf_create | intros _; apply lg_ret; apply keeps_rel].
  Qed.
End FactAtoms.

(** ** Stake rewards *)
Definition dist_in (w : World) (c : Addr) : Z := match fget c (w_rewards w) with Some r => r_dist r | None => 0 end.
Definition wdr_in (w : World) (c : Addr) : Z := match fget c (w_rewards w) with Some r => r_wdr r | None => 0 end.
(** notes: distributed so far; distributed and not yet paid out *)
Definition hear_rewards (c : Addr) (st : Z * Z) (x : Addr * Ev) : Z * Z :=
  match x with
  | (a, Pub t k (VZ n)) =>
      if (a =? c) && String.eqb t "distribute_rewards" && String.eqb k "amount" then (fst st + n, snd st + n)
      else if (a =? c) && String.eqb t "withdraw_rewards" && String.eqb k "reward_amount" then (fst st, snd st - n)
      else st
  | _ => st
  end.
Definition right_rewards (c : Addr) (st : Z * Z) (w : World) : Prop := fst st = dist_in w c /\ snd st = wdr_in w c.
Lemma plain_rewards c st a v : plain t_rewards v = true -> hear_rewards c st (a, v) = st.
Proof.
  destruct v as [| | | | |t k x]; try reflexivity. unfold plain, t_rewards, hear_rewards. simpl. destruct x; auto.
  destruct (a =? c); simpl; auto.
  destruct (String.eqb t "distribute_rewards"); simpl.
  - destruct (String.eqb k "amount"); simpl; [discriminate|]. destruct (String.eqb t "withdraw_rewards"); simpl; auto.
    destruct (String.eqb k "reward_amount"); simpl; auto; discriminate.
  - destruct (String.eqb t "withdraw_rewards"); simpl; auto.
    destruct (String.eqb k "reward_amount"); simpl; auto; discriminate.
Qed.
Lemma same_rewards c st w w' : w_rewards w' = w_rewards w -> right_rewards c st w -> right_rewards c st w'.
Proof. unfold right_rewards, dist_in, wdr_in. now intros ->. Qed.
Lemma update_books r u a b r' : update_rewards r u a b = Ok r' -> r_dist r' = r_dist r /\ r_wdr r' = r_wdr r.
Proof.
  unfold update_rewards. destruct (a =? b); [intros H; inversion H; subst; auto|]. 
  intros H. rstep H. destruct (r_adj_of r u). match goal with K : _ = Ok r' |- _ => rstep K end; auto.
Qed.

Section RewardsAtoms.
  Context (c : Addr).
  Notation QR := (keeps (hear_rewards c) (right_rewards c)).
  Lemma qr_calm {A} (m : LST A) : logs (calm w_rewards (plain t_rewards)) m -> logs QR m.
  Proof. intros G. eapply calm_keeps; [apply plain_rewards | apply same_rewards | exact G]. Qed.
  Lemma qr_emit a v : plain t_rewards v = true -> logs QR (emit a v).
  Proof. intros E. apply lg_emit. intros w st B. cbn [fold_left]. rewrite plain_rewards; auto. Qed.
  Lemma rew_kept st w self r r' : fget self (w_rewards w) = Some r -> r_dist r' = r_dist r -> r_wdr r' = r_wdr r ->
    right_rewards c st w -> forall w', w_rewards w' = fset self r' (w_rewards w) -> right_rewards c st w'.
  Proof.
    intros Gr D W [B1 B2] w' E. unfold right_rewards, dist_in, wdr_in in *. rewrite E, fget_set.
    destruct (Z.eqb_spec c self) as [->|]; auto. rewrite Gr in *. rewrite D, W. auto.
  Qed.

  Lemma qr_initialize self a s t mc mr mb : logs QR (l_rewards_initialize self a s t mc mr mb).
  Proof.
    unfold l_rewards_initialize. apply (lg_bind _ (keeps_rel _ _)).
    - apply keeps_lf. unfold rewards_initialize. intros w r w' H st [B1 B2]. rstep H. winv.
      match goal with K : negb (fmem self (w_rewards w)) = true |- _ => rename K into F end.
      apply negb_true_iff in F. unfold fmem in F. destruct (fget self (w_rewards w)) eqn:Gr; [discriminate|].
      unfold right_rewards, dist_in, wdr_in in *. simpl. rewrite fget_set.
      destruct (Z.eqb_spec c self) as [->|]; auto. rewrite Gr in *. simpl. auto.
    - intros _. apply (lg_bind _ (keeps_rel _ _)); [|intros _]; now apply qr_emit.
  Qed.
  Lemma qr_add_user e ca self u b : logs QR (l_rewards_add_user e ca self u b).
  Proof.
    unfold l_rewards_add_user. apply (lg_bind _ (keeps_rel _ _)).
    - apply keeps_lf. unfold rewards_add_user. intros w r w' H st B. rstep H. winv.
      match goal with K : update_rewards _ _ _ _ = Ok _ |- _ => apply update_books in K; destruct K as [U1 U2] end.
      eapply (rew_kept _ _ self); [eassumption|exact U1|exact U2|exact B|reflexivity].
    - intros _. now apply qr_emit.
  Qed.
  Lemma qr_bond e ca self u b : logs QR (l_rewards_bond e ca self u b).
  Proof.
    unfold l_rewards_bond. apply (lg_bind _ (keeps_rel _ _)).
    - apply keeps_lf. unfold rewards_bond. intros w r w' H st B. rstep H. winv.
      match goal with K : update_rewards _ _ _ _ = Ok _ |- _ => apply update_books in K; destruct K as [U1 U2] end.
      eapply (rew_kept _ _ self); [eassumption|exact U1|exact U2|exact B|reflexivity].
    - intros _. now apply qr_emit.
  Qed.
  Lemma qr_withdraw e ca self u b : logs QR (l_rewards_withdraw e ca self u b).
  Proof.
    intros w l x w' l' H. unfold l_rewards_withdraw in H. linv H.
    match goal with K : fget self (w_rewards w) = Some ?k |- _ => rename k into r; rename K into Gr end.
    match goal with K : reward_now _ _ _ _ = Ok ?x |- _ => rename x into amt end.
    destruct (amt =? 0); linv H.
    - eexists. split; [rewrite <- ?app_assoc; reflexivity|]. intros st B. cbn [fold_left app]. rewrite plain_rewards; auto.
    - match goal with K : tok_transfer _ _ _ _ _ _ _ = Ok _ |- _ => pose proof (mv_pos _ _ _ _ _ _ (proj2 (tok_transfer_moved _ _ _ _ _ _ _ _ _ K))) as P end.
      rests. eexists. split; [rewrite <- ?app_assoc; reflexivity|]. intros [d wd] [B1 B2]. cbn [fst snd] in B1, B2.
      cbn [fold_left app]. rewrite !(plain_rewards _ (d, wd)) by reflexivity.
      match goal with K : sub_u _ _ = Ok _ |- _ => apply sub_u_ok in K; destruct K as [-> _] end.
      match goal with K : ?z = set_tok _ _ |- right_rewards _ _ ?z => rewrite K end.
      unfold right_rewards, dist_in, wdr_in in *. simpl. rewrite fget_set, (Z.eqb_sym self c).
      destruct (Z.eqb_spec c self) as [->|]; simpl; [|auto]. rewrite Gr in *. simpl. rewrite as_u128_pos by lia. lia.
  Qed.
  Lemma qr_unbond e ca self u b n : logs QR (l_rewards_unbond e ca self u b n).
  Proof.
    intros w l x w' l' H. unfold l_rewards_unbond in H. linv H. rests.
    match goal with K : rewards_query _ _ _ w = Ok (_, ?y) |- _ => apply pure_rewards_query in K; rewrite K in * end.
    match goal with K : (if ?q then _ else _) (w, l) = Ok (?o, (?y, ?z)) |- _ => rename y into wb; rename z into lb;
      assert (D : exists d, lb = l ++ d /\ QR w wb d)
      by (destruct q; [inversion K; subst; exists []; split; [now rewrite app_nil_r | intros st B; exact B] | exact (qr_withdraw _ _ _ _ _ _ _ _ _ _ K)]) end.
    destruct D as [d [-> D]].
    match goal with K : update_rewards _ _ _ _ = Ok _ |- _ => apply update_books in K; destruct K as [U1 U2] end.
    eexists. split; [rewrite <- app_assoc; reflexivity|]. intros st B. rewrite fold_left_app. cbn [fold_left].
    rewrite plain_rewards by reflexivity.
    eapply (rew_kept _ _ self); [eassumption|exact U1|exact U2|apply D; exact B|reflexivity].
  Qed.
  Lemma qr_distribute e ca self n : logs QR (l_rewards_distribute e ca self n).
  Proof.
    intros w l x w' l' H. unfold l_rewards_distribute in H. linv H.
    match goal with K : fget self (w_rewards w) = Some ?k |- _ => rename k into r; rename K into Gr end.
    match goal with H : (if ?q then _ else _) _ = Ok _ |- _ => destruct q; linv H end.
    { exists []. split; [now rewrite app_nil_r | intros st B; exact B]. }
    match goal with K : sub_u _ _ = Ok ?y, H : (if ?y =? 0 then _ else _) _ = Ok _ |- _ => rename y into amt; destruct (amt =? 0); linv H end.
    { exists []. split; [now rewrite app_nil_r | intros st B; exact B]. }
    repeat match goal with K : add_u _ _ = Ok _ |- _ => apply add_u_ok in K; destruct K as [-> _] end. rests.
    eexists. split; [rewrite <- ?app_assoc; reflexivity|]. intros [d wd] [B1 B2]. cbn [fst snd] in B1, B2.
    cbn [fold_left app]. rewrite !(plain_rewards _ (d, wd)) by reflexivity.
    unfold right_rewards, dist_in, wdr_in in *. simpl. rewrite fget_set, (Z.eqb_sym self c).
    destruct (Z.eqb_spec c self) as [->|]; simpl; [|auto]. rewrite Gr in *. simpl. lia.
  Qed.
  Lemma qr_fund e ca self a b d : logs QR (l_rewards_fund e ca self a b d).
  Proof.
    intros w l x w' l' H. unfold l_rewards_fund in H. linv H. rests.
    match goal with K : fget self (w_rewards w) = Some ?k |- _ => rename k into r; rename K into Gr end.
    match goal with K : ?w1 = set_tok w _ |- _ => assert (E : w_rewards w1 = w_rewards w) by (rewrite K; reflexivity); clear K end.
    eexists. split; [rewrite <- ?app_assoc; reflexivity|]. intros st B. cbn [fold_left app]. rewrite !plain_rewards by reflexivity.
    eapply (rew_kept _ _ self); [exact Gr| | |exact B|cbn; rewrite E; reflexivity]; reflexivity.
  Qed.
  Theorem rewards_books e k : logs QR (lexec e k).
  Proof.
    destruct (touches_rewards k) eqn:T; [|now apply qr_calm, calm_rewards].
    destruct k; try discriminate T; simpl;
    first [apply qr_initialize | apply qr_add_user | apply qr_bond | apply qr_unbond | apply qr_distribute | apply qr_withdraw | apply qr_fund].
  Qed.
End RewardsAtoms.

(** ** The minter of the vesting contract *)
Definition minter_in (w : World) (c : Addr) : option (Addr * Z) := match fget c (w_vest w) with Some v => v_minter v | None => None end.
(** notes: the minter and the capacity, once announced *)
Definition hear_vest (c : Addr) (st : option Addr * option Z) (x : Addr * Ev) : option Addr * option Z :=
  match x with
  | (a, Pub t k (VZ n)) =>
      if a =? c then
        if String.eqb t "Update minter" then (Some n, snd st)
        else if String.eqb t "Update minter capacity" then (fst st, Some n)
        else if String.eqb t "Mint" && String.eqb k "Minted tokens: " then (fst st, match snd st with Some y => Some (y - n) | None => None end)
        else st
      else st
  | _ => st
  end.
Definition right_vest (c : Addr) (st : option Addr * option Z) (w : World) : Prop :=
  (forall a, fst st = Some a -> exists n, minter_in w c = Some (a, n)) /\
  (forall n, snd st = Some n -> exists a, minter_in w c = Some (a, n)).
Lemma plain_vest c st a v : plain t_vest v = true -> hear_vest c st (a, v) = st.
Proof.
  destruct v as [| | | | |t k x]; try reflexivity. unfold plain, t_vest, hear_vest. simpl. destruct x; auto.
  destruct (a =? c); simpl; auto.
  destruct (String.eqb t "Update minter"); simpl; [discriminate|].
  destruct (String.eqb t "Update minter capacity"); simpl; [discriminate|].
  destruct (String.eqb t "Mint"); simpl; [discriminate|auto].
Qed.
Lemma same_vest c st w w' : w_vest w' = w_vest w -> right_vest c st w -> right_vest c st w'.
Proof. unfold right_vest, minter_in. now intros ->. Qed.

Section VestAtoms.
  Context (c : Addr).
  Notation QV := (keeps (hear_vest c) (right_vest c)).
  Lemma qv_calm {A} (m : LST A) : logs (calm w_vest (plain t_vest)) m -> logs QV m.
  Proof. intros G. eapply calm_keeps; [apply plain_vest | apply same_vest | exact G]. Qed.
  Lemma vest_kept st w self r r' : fget self (w_vest w) = Some r -> v_minter r' = v_minter r ->
    right_vest c st w -> forall w', w_vest w' = fset self r' (w_vest w) -> right_vest c st w'.
  Proof.
    intros Gr D B w' E. unfold right_vest, minter_in in *. rewrite E, fget_set.
    destruct (Z.eqb_spec c self) as [->|]; auto. rewrite Gr in *. rewrite D. auto.
  Qed.
  Lemma qv_initialize self a t mc m : logs QV (l_vest_initialize self a t mc m).
  Proof.
    unfold l_vest_initialize. apply (lg_bind _ (keeps_rel _ _)).
    - apply keeps_lf. unfold vest_initialize. intros w r w' H st [B1 B2]. rstep H. winv.
      match goal with K : negb (fmem self (w_vest w)) = true |- _ => rename K into F end.
      apply negb_true_iff in F. unfold fmem in F. destruct (fget self (w_vest w)) eqn:Gr; [discriminate|].
      unfold right_vest, minter_in in *. simpl. rewrite fget_set.
      destruct (Z.eqb_spec c self) as [->|]; auto. rewrite Gr in *.
      split; intros y Y; [destruct (B1 _ Y) | destruct (B2 _ Y)]; discriminate.
    - intros _. apply lg_emit. intros w st B. cbn [fold_left]. rewrite plain_vest; auto.
  Qed.
  Lemma create_all_minter l : forall v n v' tot, create_all v l n = Ok (v', tot) -> v_minter v' = v_minter v.
  Proof.
    induction l as [|[u k] l IH]; intros v n v' tot H; unfold create_all in H; fold create_all in H.
    - inversion H; subst; reflexivity.
    - rstep H. match goal with K : create_all _ l _ = _ |- _ => apply IH in K; rewrite K end. reflexivity.
  Qed.
  Lemma qv_create e ca self l0 : logs QV (l_vest_create e ca self l0).
  Proof.
    intros w l x w' l' H. unfold l_vest_create in H. linv H. rests.
    match goal with K : fget self (w_vest w) = Some ?k |- _ => rename k into r; rename K into Gr end.
    match goal with K : create_all _ _ _ = Ok _ |- _ => apply create_all_minter in K; rename K into CM end.
    eexists. split; [rewrite <- ?app_assoc; reflexivity|]. intros st B. cbn [fold_left app]. rewrite !plain_vest by reflexivity.
    match goal with K : ?z = set_tok _ _ |- right_vest _ _ ?z => rewrite K end.
    eapply (vest_kept _ _ self); [exact Gr|exact CM |exact B|reflexivity].
  Qed.
  Lemma qv_claim e ca self u i : logs QV (l_vest_claim e ca self u i).
  Proof.
    intros w l x w' l' H. unfold l_vest_claim in H. linv H. rests.
    match goal with K : fget self (w_vest w) = Some ?k |- _ => rename k into r; rename K into Gr end.
    eexists. split; [rewrite <- ?app_assoc; reflexivity|]. intros st B. cbn [fold_left app]. rewrite !plain_vest by reflexivity.
    match goal with K : ?z = set_tok _ _ |- right_vest _ _ ?z => rewrite K end.
    eapply (vest_kept _ _ self); [exact Gr| |exact B|reflexivity]. reflexivity.
  Qed.
  Lemma qv_mint e ca self u n : logs QV (l_vest_mint e ca self u n).
  Proof.
    intros w l x w' l' H. unfold l_vest_mint in H. linv H. rests.
    match goal with K : fget self (w_vest w) = Some ?k |- _ => rename k into r; rename K into Gr end.
    match goal with K : ?w1 = set_tok w _ |- _ => assert (E : w_vest w1 = w_vest w) by (rewrite K; reflexivity); clear K end.
    match goal with K : of_option (v_minter r) _ = Ok ?m |- _ => destruct (v_minter r) as [[ma mc]|] eqn:Em; [|discriminate]; inversion K; subst m; clear K end.
    match goal with K : i2u _ = Ok _ |- _ => apply i2u_ok in K; destruct K as [-> _] end.
    eexists. split; [rewrite <- ?app_assoc; reflexivity|]. intros [km kc] [B1 B2]. cbn [fold_left app].
    rewrite (plain_vest c (km, kc) (v_token r)) by reflexivity.
    replace (hear_vest c (km, kc) (self, Pub "Mint" "sender: " (VZ u))) with (km, kc)
      by (unfold hear_vest; destruct (self =? c); reflexivity).
    unfold right_vest, minter_in in *. cbn [w_vest set_vest fst snd] in *. rewrite E, fget_set.
    unfold hear_vest. rewrite (Z.eqb_sym self c).
    destruct (Z.eqb_spec c self) as [->|]; [|split; auto].
    rewrite Gr in *. cbn. rewrite Em in *. split.
    - intros q Ha. destruct (B1 _ Ha) as [y Y]. inversion Y; subst. eauto.
    - intros y Ha. destruct kc as [kk|]; [|discriminate]. inversion Ha; subst. destruct (B2 _ eq_refl) as [z Z]. inversion Z; subst. eauto.
  Qed.
  Lemma qv_minter e ca self u n : logs QV (l_vest_update_minter e ca self u n).
  Proof.
    intros w l x w' l' H. unfold l_vest_update_minter in H. linv H.
    match goal with K : vest_update_minter _ _ _ _ _ w = Ok _ |- _ => unfold vest_update_minter in K; rstep K end. winv.
    match goal with K : fget self (w_vest w) = Some ?k |- _ => rename k into r; rename K into Gr end.
    eexists. split; [reflexivity|]. intros [km kc] [B1 B2]. cbn [fold_left].
    unfold right_vest, minter_in in *. cbn [w_vest set_vest fst snd] in *. rewrite fget_set.
    unfold hear_vest. rewrite (Z.eqb_sym self c).
    destruct (Z.eqb_spec c self) as [->|]; [|split; auto].
    rewrite Gr in *. cbn. split.
    - intros q Ha. inversion Ha; subst. eauto.
    - intros y Ha. destruct (B2 _ Ha) as [z ->]. eauto.
  Qed.
  Lemma qv_capacity e ca self u n : logs QV (l_vest_update_capacity e ca self u n).
  Proof.
    intros w l x w' l' H. unfold l_vest_update_capacity in H. linv H.
    match goal with K : vest_update_capacity _ _ _ _ _ w = Ok _ |- _ => unfold vest_update_capacity in K; rstep K end. winv.
    match goal with K : fget self (w_vest w) = Some ?k |- _ => rename k into r; rename K into Gr end.
    match goal with K : v_minter r = Some ?m |- _ => destruct m as [ma mc]; rename K into Em end.
    eexists. split; [reflexivity|]. intros [km kc] [B1 B2]. cbn [fold_left].
    unfold right_vest, minter_in in *. cbn [w_vest set_vest fst snd] in *. rewrite fget_set.
    unfold hear_vest. rewrite (Z.eqb_sym self c).
    destruct (Z.eqb_spec c self) as [->|]; [|split; auto].
    rewrite Gr in *. cbn. rewrite Em in *. split.
    - intros q Ha. destruct (B1 _ Ha) as [y Y]. inversion Y; subst. eauto.
    - intros y Ha. inversion Ha; subst. eauto.
  Qed.
  Theorem vest_books e k : logs QV (lexec e k).
  Proof.
    destruct (touches_vest k) eqn:T; [|now apply qv_calm, calm_vest].
    destruct k; try discriminate T; simpl;
    first [apply qv_initialize | apply qv_create | apply qv_claim | apply qv_mint | apply qv_minter | apply qv_capacity].
  Qed.
End VestAtoms.

(** ** Whole histories *)
Lemma lrun_rel (Q : World -> World -> Log -> Prop) H : LogRel Q -> (forall e k, logs Q (lexec e k)) ->
  (forall w n s, Q w (set_time w n s) []) -> forall w l w' L, lrun H w l w' L -> Q w w' L.
Proof.
  intros RQ E T w l w' L R. induction R as [w | w e k w1 L1 l w2 L2 Eh X R IH | w n s l w2 L N1 N2 R IH].
  - apply (lq_refl Q RQ).
  - apply (lq_trans Q RQ _ w1); auto. apply (lg_exec Q e k w w1 L1); auto.
  - apply (lq_trans Q RQ _ (set_time w n s) _ [] L); auto.
Qed.
Lemma lrun_keeps {T} (hear : T -> Addr * Ev -> T) (R : T -> World -> Prop) H :
  (forall e k, logs (keeps hear R) (lexec e k)) -> (forall st w n s, R st w -> R st (set_time w n s)) ->
  forall l w L st, lrun H w_empty l w L -> R st w_empty -> R (fold_left hear L st) w.
Proof.
  intros E T0 l w L st X B. refine (lrun_rel (keeps hear R) H (keeps_rel _ _) E _ _ _ _ _ X _ B).
  intros w0 n s st0 B0. simpl. auto.
Qed.
