(** C214, C215: the host refuses a second demand for the signature of the same account in the same
    frame ("frame is already authorized"), which the other files leave out.  Here: where that
    can happen, and what it stops.  The frames below the root ([k_from] is a contract) are
    told apart by the calls they run. *)
From Coq Require Import ZArith List Bool Lia.
From Coq Require Import ZifyBool.
From Verif Require Import Base FMap Decimal DecimalProofs Curve World Token TokenProofs Frame Stake Pool
  Stable Rewards Vest Factory Router System SysRewards Script Runs Props_Token Props_Pool Props_Rewards Props_StakeCases Props_RewardsCases Props_Live
  Props_LiveRew Asks AsksErase AsksExact Props_Asks Props_AsksCases.
Import ListNotations.
Open Scope list_scope.
Open Scope Z_scope.

(** whose signatures the root frame demands, in order *)
Definition root_signers (D : list Ask) : list Addr :=
  map k_who (filter (fun x => match k_from x with None => true | Some _ => false end) D).

(** the transaction under the host's rule *)
Definition accepted (e : Env) (k : Call) (w w' : World) : Prop :=
  exists D, aexec e k (w, []) = Ok (tt, (w', D)) /\ NoDup (root_signers D).

Lemma nodup2 (a b : Z) : NoDup [a; b] <-> a <> b.
Proof.
  split.
  - intros N ->. inversion N as [|x l I _]; subst. apply I. left. reflexivity.
  - intros N. constructor; [intros [X|[]]; congruence|]. constructor; [intros []|constructor].
Qed.
Lemma nodup1 (a : Z) : NoDup [a]. Proof. constructor; [intros []|constructor]. Qed.
Lemma nodup_twice (a b : Z) : ~ NoDup [a; b; b].
Proof. intros N. inversion N as [|x l _ N2]; subst. apply nodup2 in N2. auto. Qed.

Lemma unbond_asks H w e c u b x w' D r : reachable H w -> rewards_at w c r ->
  aexec e (CRewUnbond c u b x) (w, []) = Ok (tt, (w', D)) ->
  root_signers D = u :: r_staking r :: (if due_now r (w_now w) u b =? 0 then [] else [r_staking r]).
Proof.
  intros R Er X. cbn [aexec] in X. unfold a_rewards_unbond in X. ainv X.
  match goal with K : fget c (w_rewards w) = Some ?q |- _ => assert (q = r) by (unfold rewards_at in Er; congruence); subst q end.
  match goal with K : rewards_query _ _ _ _ = Ok _ |- _ => rename K into Q end.
  apply (C148_query H w c r R Er) in Q. destruct Q as [_ [-> ->]].
  match goal with K : (if ?t then _ else _) _ = Ok (?y, _) |- _ => destruct y; destruct t eqn:Z0; [ainv K | apply ax_rewards_withdraw in K; destruct K as [r2 [E2 K]]; simpl in K] end.
  - simpl. reflexivity.
  - assert (r2 = r) by (unfold rewards_at in Er; congruence). subst r2. subst. reflexivity.
Qed.

Lemma route_inner e h f u ms dl mf ops x w D : RouteAsks e h f u ms dl mf ops x w D -> root_signers D = [].
Proof. induction 1; [reflexivity|]. exact IHRouteAsks. Qed.

Lemma route_calls e h f u ms dl mf ops x w D y : RouteAsks e h f u ms dl mf ops x w D -> In y D ->
  (exists t v c z, k_call y = CTransfer t v c z) \/
  (exists p v o z mi m1 d1 f1, k_call y = CPoolSwap p v o z mi m1 d1 f1 \/ k_call y = CStableSwap p v o z mi m1 d1 f1).
Proof.
  induction 1 as [|o ops p k0 x0 y0 w0 w1 D0 Fp S K IH]; intros I; [destruct I|].
  destruct I as [<-|[<-|I]]; [|unfold pay; simpl; eauto 8|auto].
  simpl. right. destruct S as [[-> _]|[-> _]]; do 8 eexists; eauto.
Qed.

(** Exactly these calls make a frame demand a signature twice: [calculate_unbond] of a user with
    a reward pending (the nested withdrawal demands the staking address once more) or of the
    staking address itself; [fund_distribution] where the admin is the staking address. *)
Theorem C214_repeated_demands H w e k w' D : reachable H w -> aexec e k (w, []) = Ok (tt, (w', D)) ->
  (~ NoDup (root_signers D) <->
   (exists c r u b x, k = CRewUnbond c u b x /\ rewards_at w c r /\ (u = r_staking r \/ due_now r (w_now w) u b <> 0)) \/
   (exists c r s d x, k = CRewFund c s d x /\ rewards_at w c r /\ r_admin r = r_staking r)).
Proof.
  intros R X. pose proof (C178_demands _ _ _ _ _ _ R X) as Dm.
  assert (One : NoDup (root_signers D) -> (forall c u b x, k <> CRewUnbond c u b x) -> (forall c s d x, k <> CRewFund c s d x) ->
    (~ NoDup (root_signers D) <->
   (exists c r u b x, k = CRewUnbond c u b x /\ rewards_at w c r /\ (u = r_staking r \/ due_now r (w_now w) u b <> 0)) \/
   (exists c r s d x, k = CRewFund c s d x /\ rewards_at w c r /\ r_admin r = r_staking r))).
  { intros N A B. split; [tauto|]. intros [[c [r [u [b [x [Y _]]]]]]|[c [r [s [d [x [Y _]]]]]]]; exfalso; [eapply A|eapply B]; eauto. }
  destruct Dm; try (apply One; [try apply nodup1; try constructor|intros; subst; try congruence|intros; subst; try congruence]; fail).
  - apply One; [constructor|intros; destruct k; try discriminate|intros; destruct k; try discriminate].
  - apply One; [apply nodup1|intros ? ? ? ? ->|intros ? ? ? ? ->]; contradiction.
  - apply One; [apply nodup1|intros|intros]; match goal with K : _ \/ _ |- _ => destruct K; congruence end.
  - subst k. rewrite (unbond_asks _ _ _ _ _ _ _ _ _ _ R ltac:(eassumption) X). split.
    + intros N. left. do 5 eexists. split; [reflexivity|]. split; [eassumption|].
      destruct (Z.eqb_spec (due_now r (w_now w) u b) 0); [|auto]. left.
      destruct (Z.eq_dec u (r_staking r)); [auto|]. exfalso. apply N. apply nodup2. auto.
    + intros [[c0 [r0 [u0 [b0 [x0 [Y [Er Q]]]]]]]|[c0 [r0 [s0 [d0 [x0 [Y _]]]]]]]; [|discriminate Y]. inversion Y; subst c0 u0 b0 x0.
      assert (r0 = r) by (unfold rewards_at in *; congruence). subst r0.
      destruct (Z.eqb_spec (due_now r (w_now w) u b) 0); [|apply nodup_twice].
      intros N. apply nodup2 in N. tauto.
  - subst k. change (~ NoDup [r_admin r; r_staking r] <->
      (exists c0 r0 u b x0, CRewFund c s d x = CRewUnbond c0 u b x0 /\ rewards_at w c0 r0 /\ (u = r_staking r0 \/ due_now r0 (w_now w) u b <> 0)) \/
      (exists c0 r0 s0 d0 x0, CRewFund c s d x = CRewFund c0 s0 d0 x0 /\ rewards_at w c0 r0 /\ r_admin r0 = r_staking r0)).
    rewrite nodup2. split.
    + intros N. right. do 5 eexists. split; [reflexivity|]. split; [eassumption|lia].
    + intros [[c0 [r0 [u0 [b0 [x0 [Y _]]]]]]|[c0 [r0 [s0 [d0 [x0 [Y [Er Q]]]]]]]]; [discriminate Y|]. inversion Y; subst c0 s0 d0 x0.
      assert (r0 = r) by (unfold rewards_at in *; congruence). subst r0. auto.
  - subst k. apply One; [|congruence|congruence]. destruct (a =? c); apply nodup1.
  - subst k. apply One; [|congruence|congruence]. unfold root_signers. simpl.
    match goal with K : RouteAsks _ _ _ _ _ _ _ _ _ _ _ |- _ => apply route_inner in K; unfold root_signers in K; rewrite K end. apply nodup1.
Qed.
Print Assumptions C214_repeated_demands.

(** Below the root every frame that demands a signature runs a function with one demand. *)
Theorem C214_inner_frames H w e k w' D x : reachable H w -> aexec e k (w, []) = Ok (tt, (w', D)) -> In x D -> k_from x <> None ->
  forall w2 e2 w2' D2, reachable H w2 -> aexec e2 (k_call x) (w2, []) = Ok (tt, (w2', D2)) -> length (root_signers D2) = 1%nat.
Proof.
  intros R X I F w2 e2 w2' D2 R2 X2. pose proof (C178_demands _ _ _ _ _ _ R X) as Dm. pose proof (C178_demands _ _ _ _ _ _ R2 X2) as Dm2.
  assert (Tr : (exists t u c y, k_call x = CTransfer t u c y) \/ (exists t u y, k_call x = CBurn t u y) \/ (exists t u y, k_call x = CMint t u y) \/
    (exists p u o y mi ms dl mf, k_call x = CPoolSwap p u o y mi ms dl mf \/ k_call x = CStableSwap p u o y mi ms dl mf)).
  { destruct Dm; simpl in I;
      repeat match goal with
      | K : _ \/ _ |- _ => destruct K
      | K : False |- _ => contradiction
      | K : In _ (if ?b then _ else _) |- _ => destruct b; simpl in K
      end; try (subst; simpl in *; congruence); try (subst x; unfold pay; simpl; eauto 12; fail).
    - subst l. contradiction.
    - subst l. match goal with K : In x [_] |- _ => destruct K as [<-|[]] end. simpl in F. congruence.
    - match goal with K : RouteAsks _ _ _ _ _ _ _ _ _ _ _ |- _ => destruct (route_calls _ _ _ _ _ _ _ _ _ _ _ x K ltac:(assumption)) as [|[p0 [u0 [o0 [y0 [mi0 [ms0 [dl0 [mf0 Q]]]]]]]]] end; [auto|].
      right. right. right. do 8 eexists. exact Q. }
  destruct Tr as [[t [u [c [y Q]]]]|[[t [u [y Q]]]|[[t [u [y Q]]]|[p [u [o [y [mi [ms [dl [mf [Q|Q]]]]]]]]]]]]; rewrite Q in *;
    destruct Dm2; try reflexivity; try discriminate; try (destruct H0; discriminate).
Qed.
Print Assumptions C214_inner_frames.

(** So the host's rule takes nothing from all the other calls. *)
Theorem C214_others_unaffected H w e k w' : reachable H w ->
  (forall c u b x, k <> CRewUnbond c u b x) -> (forall c s d x, k <> CRewFund c s d x) ->
  (accepted e k w w' <-> exec e k w = Ok (tt, w')).
Proof.
  intros R A B. split.
  - intros [D [X _]]. eapply aexec_exec; eauto.
  - intros X. apply C177_recording_changes_nothing in X. destruct X as [D X]. exists D. split; [auto|].
    destruct (ListDec.NoDup_dec Z.eq_dec (root_signers D)) as [N|N]; [auto|]. exfalso.
    apply (C214_repeated_demands _ _ _ _ _ _ R X) in N.
    destruct N as [[c [r [u [b [x [Y _]]]]]]|[c [r [s [d [x [Y _]]]]]]]; [eapply A|eapply B]; eauto.
Qed.
Print Assumptions C214_others_unaffected.

(** C215: unbonding under the rule. *)
Theorem C215_unbond_accepted H w e c r u b x : reachable H w -> rewards_at w c r ->
  ((exists w', accepted e (CRewUnbond c u b x) w w') <->
   u <> r_staking r /\ due_now r (w_now w) u b = 0 /\ exists w', exec e (CRewUnbond c u b x) w = Ok (tt, w')).
Proof.
  intros R Er. split.
  - intros [w' [D [X N]]]. pose proof (unbond_asks _ _ _ _ _ _ _ _ _ _ R Er X) as S. rewrite S in N.
    destruct (Z.eqb_spec (due_now r (w_now w) u b) 0) as [Z0|]; [|exfalso; eapply nodup_twice; eauto].
    apply nodup2 in N. split; [auto|]. split; [auto|]. exists w'. eapply aexec_exec; eauto.
  - intros [N [Z0 [w' X]]]. exists w'. apply C177_recording_changes_nothing in X. destruct X as [D X]. exists D. split; [auto|].
    rewrite (unbond_asks _ _ _ _ _ _ _ _ _ _ R Er X), Z0. apply nodup2. auto.
Qed.
Print Assumptions C215_unbond_accepted.

Theorem C215_fund_accepted H w e c r s d x : reachable H w -> rewards_at w c r ->
  ((exists w', accepted e (CRewFund c s d x) w w') <->
   r_admin r <> r_staking r /\ exists w', exec e (CRewFund c s d x) w = Ok (tt, w')).
Proof.
  intros R Er. assert (Same : forall r0, rewards_at w c r0 -> r0 = r) by (unfold rewards_at in *; congruence). split.
  - intros [w' [D [X N]]]. split; [|exists w'; eapply aexec_exec; eauto]. intros Q.
    revert N. apply (C214_repeated_demands _ _ _ _ _ _ R X). right. do 5 eexists. split; [reflexivity|]. eauto.
  - intros [N [w' X]]. exists w'. apply C177_recording_changes_nothing in X. destruct X as [D X]. exists D. split; [auto|].
    destruct (ListDec.NoDup_dec Z.eq_dec (root_signers D)) as [M|M]; [auto|]. exfalso.
    apply (C214_repeated_demands _ _ _ _ _ _ R X) in M.
    destruct M as [[c0 [r0 [u0 [b0 [x0 [Y _]]]]]]|[c0 [r0 [s0 [d0 [x0 [Y [E0 Q]]]]]]]]; [discriminate Y|].
    inversion Y; subst. apply Same in E0. subst. auto.
Qed.
Print Assumptions C215_fund_accepted.

(** A user with a pending reward cannot unbond, whoever signs; after withdrawing until nothing
    is due they can.  At half multiplier one withdrawal leaves something due (see C47), so
    that the next attempt is refused too. *)
Definition kunb : Call := CRewUnbond 30 (-2) bA 100.
Definition r60 : list Act := r3 ++ [Wait (1000 + 60 * day) 3].
Definition r61 : list Act := r60 ++ [Do [-7] (CRewWithdraw 30 (-2) bA)].
Theorem C215_pending_reward_stops_unbonding_refuted : exists w r e w', reachable xH w /\ rewards_at w 30 r /\
  exec e kunb w = Ok (tt, w') /\ due_now r (w_now w) (-2) bA = 6000 /\
  (forall e2 w2, ~ accepted e2 kunb w w2).
Proof.
  assert (R : reachable xH (world_of r60)) by (apply world_reach; vm_compute; reflexivity).
  assert (Er : rewards_at (world_of r60) 30 (the_rewards r60)) by (vm_compute; reflexivity).
  assert (Du : due_now (the_rewards r60) (w_now (world_of r60)) (-2) bA = 6000) by (vm_compute; reflexivity).
  destruct (exec (env_of [-2; -7]) kunb (world_of r60)) as [[[] w']|] eqn:X; [|exfalso; revert X; vm_compute; discriminate].
  exists (world_of r60), (the_rewards r60), (env_of [-2; -7]), w'. split; [exact R|]. split; [exact Er|]. split; [exact X|]. split; [exact Du|].
  intros e2 w2 A. assert (Q : exists w2, accepted e2 kunb (world_of r60) w2) by eauto.
  apply (C215_unbond_accepted _ _ _ _ _ _ _ _ R Er) in Q. destruct Q as [_ [Q _]]. rewrite Du in Q. discriminate Q.
Qed.
Print Assumptions C215_pending_reward_stops_unbonding_refuted.

Example C215_after_withdrawing : exists w', accepted (env_of [-2; -7]) kunb (world_of r61) w'.
Proof.
  assert (R : reachable xH (world_of r61)) by (apply world_reach; vm_compute; reflexivity).
  assert (Er : rewards_at (world_of r61) 30 (the_rewards r61)) by (vm_compute; reflexivity).
  apply (C215_unbond_accepted _ _ _ _ _ _ _ _ R Er). split; [vm_compute; discriminate|]. split; [vm_compute; reflexivity|].
  destruct (exec (env_of [-2; -7]) kunb (world_of r61)) as [[[] w']|] eqn:X; [eauto|exfalso; revert X; vm_compute; discriminate].
Qed.
(** at half multiplier the first withdrawal is not enough *)
Example C215_half_multiplier : due_now (the_rewards r4) (w_now (world_of r4)) (-2) bA = 1500.
Proof. vm_compute. reflexivity. Qed.
Example C214_example : root_signers [mkAsk (-1) None kfund; mkAsk (-7) None kfund; pay 30 (-1) 2 700] = [-1; -7] /\
  asks_of [-1; -7] kfund (world_of (r1 ++ [Wait 1040 1])) = Some [mkAsk (-1) None kfund; mkAsk (-7) None kfund; pay 30 (-1) 2 700] /\
  (exists w', accepted (env_of [-1; -7]) kfund (world_of (r1 ++ [Wait 1040 1])) w').
Proof.
  split; [reflexivity|]. split; [vm_compute; reflexivity|].
  assert (R : reachable xH (world_of (r1 ++ [Wait 1040 1]))) by (apply world_reach; vm_compute; reflexivity).
  assert (Er : rewards_at (world_of (r1 ++ [Wait 1040 1])) 30 (the_rewards (r1 ++ [Wait 1040 1]))) by (vm_compute; reflexivity).
  apply (C215_fund_accepted _ _ _ _ _ _ _ _ R Er). split; [vm_compute; discriminate|].
  destruct (exec (env_of [-1; -7]) kfund (world_of (r1 ++ [Wait 1040 1]))) as [[[] w']|] eqn:X; [eauto|exfalso; revert X; vm_compute; discriminate].
Qed.
