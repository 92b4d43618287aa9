(** When rewards are claimed: C245. *)
From Coq Require Import ZArith List Bool Lia Permutation.
From Coq Require Import ZifyBool.
From Verif Require Import Base FMap Decimal DecimalProofs World Token TokenProofs Frame Runs Stake Pool PoolProofs
  Stable StableProofs Rewards Vest Factory Router System SysFrame SysInv SysPool SysSupply SysVest SysStake
  Script Props_Token Props_Pool Props_Vest Props_Stake Props_StakeFair.
Import ListNotations.
Open Scope Z_scope.

(** calls that leave the stakes and claims of [u] and [v] alone, and that distribute nothing at the time [t] *)
Definition apart (c u v t : Z) (w : World) (k : Call) : Prop :=
  match k with
  | CBond c' x _ | CUnbond c' x _ _ | CWithdrawRewards c' x => c' = c -> x <> u /\ x <> v
  | CDistribute c' _ _ _ => c' = c -> w_now w <> t
  | _ => True
  end.

(** the records of the distributions up to the time [t], and the bookings of [u] and [v] *)
Definition kept (c u v rt t : Z) (s1 : Stake) (h1 : fmap Z) (w : World) : Prop :=
  t <= w_now w /\ exists s h, stake_at w c s /\ fget rt (s_rh s) = Some h /\
    (forall d, d <= t -> fget d h = fget d h1 /\ fget d (s_tsh s) = fget d (s_tsh s1)) /\
    fget u (s_users s) = fget u (s_users s1) /\ fget v (s_users s) = fget v (s_users s1).

Lemma kept_run H c u v rt t s1 h1 w l w' : run_if (apart c u v t) H w l w' -> reachable H w ->
  kept c u v rt t s1 h1 w -> kept c u v rt t s1 h1 w'.
Proof.
  apply run_if_inv.
  - intros e k w1 w2 _ Rc K X [Ht [s [h [Es [Eh [D [U V]]]]]]]. pose proof (reach_good _ _ Rc) as G. pose proof (reach_stake _ _ Rc _ _ Es) as I.
    destruct (exec_framec _ _ _ _ X G) as [_ [XT _]]. pose proof (ex_now _ _ XT) as Nw. split; [lia|].
    destruct (stake_step _ _ _ _ _ _ X G Es (sv_nodup _ _ _ I)) as [s2 [E2 St]]. exists s2.
    destruct St as [x amt s' Ek B|x amt ts s' ll Ek B|x a s' Ek B|x amt a s' h' Ek B|x s' Ek B|Sm _]; subst; simpl in K.
    + destruct B. subst s'. destruct (K eq_refl). exists h. split; [auto|]. simpl. rewrite !fget_set.
      destruct (Z.eqb_spec u x), (Z.eqb_spec v x); try congruence. auto.
    + destruct B. subst s'. destruct (K eq_refl). exists h. split; [auto|]. simpl. rewrite !fget_set.
      destruct (Z.eqb_spec u x), (Z.eqb_spec v x); try congruence. auto.
    + destruct B. subst s'. exists h. split; [auto|]. simpl. rewrite fget_set.
      destruct (Z.eqb_spec rt a) as [->|]; [|auto]. exfalso. apply sf_new. apply (sv_rh _ _ _ I). unfold fmem. rewrite Eh. auto.
    + destruct B. subst s'. specialize (K eq_refl). assert (t < w_now w1) by lia. simpl. rewrite !fget_set.
      destruct (Z.eqb_spec rt a) as [->|].
      * rewrite Eh in sd_hist. inversion sd_hist; subst h'. eexists. split; [auto|]. split; [reflexivity|]. split; [|auto].
        intros d Ld. rewrite !fget_set. destruct (Z.eqb_spec d (w_now w1)); [lia|]. apply D; auto.
      * exists h. split; [auto|]. split; [auto|]. split; [|auto].
        intros d Ld. rewrite !fget_set. destruct (Z.eqb_spec d (w_now w1)); [lia|]. apply D; auto.
    + destruct B. subst s'. destruct (K eq_refl). exists h. split; [auto|]. simpl. rewrite !fget_set.
      destruct (Z.eqb_spec u x), (Z.eqb_spec v x); try congruence. auto.
    + exists h. auto.
  - intros w1 n sq Hn [Ht [s [h Q]]]. split; [simpl; lia|]. exists s, h. exact Q.
Qed.

(** a sum over the distributions of [h2] up to [t] is a sum over those of [h1] if they agree until then *)
Lemma sum_upto (f : Z -> Z) t (h1 h2 : fmap Z) : fsorted h1 -> fsorted h2 ->
  (forall d A, fget d h1 = Some A -> d <= t) -> (forall d, d <= t -> fget d h2 = fget d h1) ->
  sum_of f (fkeys h1) = sum_of f (filter (fun d => d <=? t) (fkeys h2)).
Proof.
  intros S1 S2 B E. apply sum_perm, NoDup_Permutation.
  - eapply sorted_nodup; exact S1.
  - apply NoDup_filter. eapply sorted_nodup; exact S2.
  - intros d. rewrite filter_In. split.
    + intros I. apply sorted_mem in I; auto. unfold fmem in I. destruct (fget d h1) as [A|] eqn:Ed; [|discriminate].
      pose proof (B _ _ Ed). split; [|lia]. apply keys_mem. unfold fmem. rewrite E, Ed by lia. auto.
    + intros [I L]. apply sorted_mem in I; auto. apply keys_mem. unfold fmem in *. rewrite E in I by lia. exact I.
Qed.

(** ** C245 *)
(** Take two stakers with the same stakes and the same last claim.  One claims now, and both do nothing until
    a later time.  If nothing is distributed after the claim in its very second, the other can then claim what
    the first got plus what the first can claim again. *)
Theorem C245_claiming_early_changes_nothing H w e c s u v rt p w1 l w2 y z : reachable H w -> stake_at w c s -> u <> v ->
  stakes_of s v = stakes_of s u -> last_claim s v = last_claim s u ->
  claimable w c u rt p -> exec e (CWithdrawRewards c u) w = Ok (tt, w1) -> e_hash e = H ->
  run_if (apart c u v (w_now w)) H w1 l w2 ->
  claimable w2 c u rt y -> claimable w2 c v rt z ->
  z = p + y.
Proof.
  intros R E Nuv Sv Lv Cu X He Rn Cy Cz.
  assert (R1 : reachable H w1). { eapply reach_run; [exact R|]. econstructor; [|constructor]. constructor; eauto. }
  assert (R2 : reachable H w2) by (eapply reach_run; [exact R1|]; eapply run_if_run; eauto).
  destruct (claim_hist _ _ _ _ _ _ _ R E Cu) as [h Eh].
  pose proof (reach_stake _ _ R _ _ E) as I. pose proof (reach_good _ _ R) as G.
  destruct (exec_framec _ _ _ _ X G) as [_ [XT _]]. pose proof (ex_now _ _ XT) as Nw.
  simpl in X. apply stake_withdraw_ok in X; [|intros s0 E0; apply (reach_stake _ _ R _ _ E0)].
  destruct X as [s0 [s' [B1 B2 B3 [wa [M Ew]] Es]]]. unfold stake_at in E. rewrite E in B2. inversion B2; subst s0. clear B2.
  assert (K : kept c u v rt (w_now w) s' h w1).
  { split; [lia|]. exists s', h. split; [rewrite Ew; unfold stake_at; simpl; apply fget_set_same|]. subst s'. simpl. auto. }
  destruct (kept_run _ _ _ _ _ _ _ _ _ _ _ Rn R1 K) as [Ht [s2 [h2 [E2 [Eh2 [D [U V]]]]]]].
  pose proof (reach_stake _ _ R2 _ _ E2) as I2.
  destruct (sv_hist _ _ _ I _ _ Eh) as [S1 Hh]. destruct (sv_hist _ _ _ I2 _ _ Eh2) as [S2 _].
  destruct (claim_days _ _ _ _ _ _ _ _ R E Cu Eh) as [-> _]. destruct (claim_days _ _ _ _ _ _ _ _ R2 E2 Cy Eh2) as [-> _].
  destruct (claim_days _ _ _ _ _ _ _ _ R2 E2 Cz Eh2) as [-> _].
  assert (U1 : last_claim s2 u = w_now w /\ stakes_of s2 u = stakes_of s u).
  { unfold last_claim, stakes_of. rewrite U. subst s'. simpl. rewrite fget_set_same. cbn [b_last b_stakes]. split; [reflexivity|exact (stakes_user s u)]. }
  assert (V1 : last_claim s2 v = last_claim s u /\ stakes_of s2 v = stakes_of s u).
  { rewrite <- Lv, <- Sv. unfold last_claim, stakes_of. rewrite V. subst s'. simpl. rewrite fget_set_other by auto. auto. }
  assert (Ll : last_claim s u <= w_now w).
  { pose proof (reach_now _ _ R). unfold last_claim. destruct (fget u (s_users s)) as [b|] eqn:Eb; [|lia]. apply fget_in in Eb.
    apply (su_last _ _ (sv_user _ _ _ I _ _ Eb)). }
  destruct U1 as [U1 U2], V1 as [V1 V2].
  rewrite (sum_upto (one_day s h u) (w_now w) h h2 S1 S2) by (intros; first [apply D; assumption|eapply Hh; eassumption]).
  rewrite (sum_filter (fun d => d <=? w_now w) (one_day s2 h2 v)).
  assert (Q1 : sum_of (one_day s2 h2 v) (filter (fun d => d <=? w_now w) (fkeys h2)) = sum_of (one_day s h u) (filter (fun d => d <=? w_now w) (fkeys h2))).
  { assert (Qd : forall d, d <= w_now w -> one_day s2 h2 v d = one_day s h u d).
    { intros d Ld. unfold one_day. rewrite V1, V2. destruct (D d Ld) as [-> ->]. subst s'. reflexivity. }
    revert Qd. generalize (w_now w) (fkeys h2). clear. intros t m Qd. induction m as [|d m IH]; [reflexivity|]. simpl.
    destruct (Z.leb_spec d t); simpl; [rewrite Qd by lia|]; lia. }
  assert (Q2 : sum_of (one_day s2 h2 v) (filter (fun d => negb (d <=? w_now w)) (fkeys h2)) = sum_of (one_day s2 h2 u) (fkeys h2)).
  { assert (Qd : forall d, one_day s2 h2 u d = if d <=? w_now w then 0 else one_day s2 h2 v d).
    { intros d. unfold one_day. rewrite U1, U2, V1, V2. destruct (Z.leb_spec d (w_now w)).
      - destruct (Z.ltb_spec (w_now w) d); [lia|reflexivity].
      - destruct (Z.ltb_spec (w_now w) d); [|lia]. destruct (Z.ltb_spec (last_claim s u) d); [reflexivity|lia]. }
    revert Qd. generalize (w_now w) (fkeys h2). clear. intros t m Qd. induction m as [|d m IH]; [reflexivity|]. simpl.
    rewrite Qd. destruct (Z.leb_spec d t); simpl; lia. }
  rewrite Q1, Q2. reflexivity.
Qed.
Print Assumptions C245_claiming_early_changes_nothing.
