(** Exact conditions under which token and stake calls succeed (C125-C127). *)
From Coq Require Import ZArith List Bool Lia.
From Coq Require Import ZifyBool.
From Verif Require Import Base FMap Decimal DecimalProofs Curve World Token TokenProofs Frame Stake Pool PoolProofs
  Stable StableProofs Rewards Vest Factory Router System SysFrame SysInv SysPool SysStable SysSupply
  SysVest SysStake SysRewards Script Runs Props_Token Props_Pool Props_Stable Props_Vest Props_Stake Props_Live.
Import ListNotations.
Open Scope Z_scope.

Lemma authed_none e a : authed e None a = signs e a.
Proof. unfold authed. apply orb_false_r. Qed.

Lemma spend_runs a x k : TokGood k -> 0 <= x <= tk_balance a k ->
  tk_spend a x k = Ok (tk_write_balance a (tk_balance a k - x) k).
Proof.
  intros TG L. pose proof (tg_range _ TG a). unfold tk_spend.
  destruct (Z.ltb_spec (tk_balance a k) x); [lia|]. cbn [negb guard rbind].
  unfold sub_i. unfold rbind, guard. rewrite chk_ok; [reflexivity|]. unfold in_i128, I128_MIN, I128_MAX in *. lia.
Qed.

Lemma spend_allowance_runs seq f s amt k : TokGood k -> 0 <= amt <= fst (tk_read_allowance seq f s k) ->
  fst (tk_read_allowance seq f s k) <= I128_MAX ->
  exists k', tk_spend_allowance seq f s amt k = Ok k' /\ t_bal k' = t_bal k.
Proof.
  intros TG L M. unfold tk_spend_allowance. destruct (tk_read_allowance seq f s k) as [a ex] eqn:E. cbn [fst] in *.
  destruct (Z.ltb_spec a amt); [lia|]. unfold rbind, guard. cbn [negb].
  destruct (Z.ltb_spec 0 amt); [|eexists; split; reflexivity].
  unfold sub_i. rewrite chk_ok by (unfold in_i128, I128_MIN; lia).
  unfold tk_write_allowance, rbind, guard. unfold tk_read_allowance in E.
  destruct (tk_allow_entry f s k) as [[am x]|]; [|inversion E; lia].
  destruct (Z.ltb_spec x seq); inversion E; subst; [lia|].
  destruct (Z.ltb_spec ex seq); [lia|]. rewrite andb_false_r. cbn [negb]. eexists. split; reflexivity.
Qed.

Theorem C125_token_calls_succeed_iff H w e t k : reachable H w -> fget t (w_tok w) = Some k ->
  (forall from to amt, (exists w', tok_transfer e None t from to amt w = Ok (tt, w')) <->
     signs e from = true /\ 0 <= amt <= bal w t from /\ (from = to \/ bal w t to + amt <= I128_MAX)) /\
  (forall from amt, (exists w', tok_burn e None t from amt w = Ok (tt, w')) <->
     signs e from = true /\ 0 <= amt <= bal w t from) /\
  (forall to amt, (exists w', tok_mint e None t to amt w = Ok (tt, w')) <->
     signs e (t_admin k) = true /\ 0 <= amt /\ bal w t to + amt <= I128_MAX) /\
  (forall from sp amt ex, (exists w', tok_approve e None t from sp amt ex w = Ok (tt, w')) <->
     signs e from = true /\ 0 <= amt /\ (amt = 0 \/ w_seq w <= ex)) /\
  (forall sp from to amt, live_allowance w t from sp <= I128_MAX ->
     (exists w', tok_transfer_from e None t sp from to amt w = Ok (tt, w')) <->
     signs e sp = true /\ 0 <= amt <= live_allowance w t from sp /\ amt <= bal w t from /\
     (from = to \/ bal w t to + amt <= I128_MAX)) /\
  (forall sp from amt, live_allowance w t from sp <= I128_MAX ->
     (exists w', tok_burn_from e None t sp from amt w = Ok (tt, w')) <->
     signs e sp = true /\ 0 <= amt <= live_allowance w t from sp /\ amt <= bal w t from).
Proof.
  intros R Hk. pose proof (reach_good _ _ R) as G. pose proof (gd_tok _ G _ _ Hk) as TG.
  assert (T : is_tok w t) by (exists k; exact Hk).
  pose proof (tg_range _ TG) as Rg.
  assert (Bl : forall a, bal w t a = tk_balance a k) by (intros; apply bal_get; auto).
  assert (La : forall f s, live_allowance w t f s = fst (tk_read_allowance (w_seq w) f s k)).
  { intros f s. apply live_read. exact Hk. }
  split; [|split; [|split; [|split; [|split]]]].
  - intros from to amt. split.
    + intros [w' X]. pose proof (tok_transfer_moved _ _ _ _ _ _ _ _ _ X) as M0.
      apply tok_transfer_ok in X. destruct X as [A _]. rewrite authed_none in A.
      destruct M0 as [_ M]. pose proof (mv_pos _ _ _ _ _ _ M). pose proof (mv_le _ _ _ _ _ _ M).
      pose proof (mv_fit _ _ _ _ _ _ M) as F. rewrite (mv_bal _ _ _ _ _ _ M), !Z.eqb_refl in F.
      split; [exact A|]. split; [lia|]. destruct (Z.eq_dec from to); [auto|right].
      destruct (Z.eqb_spec to from); [congruence|]. unfold ind in F. cbn [andb] in F. lia.
    + intros [A [L F]]. destruct (run_transfer e None t from to amt w G) as [w' [X _]]; auto.
      { rewrite authed_none. exact A. } eauto.
  - intros from amt. split.
    + intros [w' X]. apply tok_burn_ok in X. destruct X as [A [P [k0 [U L]]]]. rewrite authed_none in A.
      pose proof (proj1 U) as E0. rewrite Hk in E0. inversion E0; subst k0. rewrite Bl. auto.
    + intros [A L]. destruct (run_burn e None t from amt w G) as [w' [X _]]; auto.
      { rewrite authed_none. exact A. } eauto.
  - intros to amt. split.
    + intros [w' X]. apply tok_mint_ok in X. destruct X as [k0 [A [P [U L]]]]. rewrite authed_none in A.
      pose proof (proj1 U) as E0. rewrite Hk in E0. inversion E0; subst k0. rewrite Bl. auto.
    + intros [A [P L]]. destruct (run_mint e None t to amt w (t_admin k) G) as [w' [X _]]; auto.
      { unfold tadmin. rewrite Hk. reflexivity. }
      { rewrite authed_none. exact A. } eauto.
  - intros from sp amt ex. split.
    + intros [w' X]. apply tok_approve_ok in X. destruct X as [A [P [k0 [k' [W _]]]]]. rewrite authed_none in A.
      apply tk_write_allowance_ok in W. destruct W as [W _]. split; [exact A|]. split; [exact P|].
      destruct (Z.eq_dec amt 0); [auto|right]. apply W. lia.
    + intros [A [P Q]]. unfold tok_approve. rewrite (run_bind _ _ _ tt w) by (apply run_auth; rewrite authed_none; auto).
      rewrite (run_bind _ _ _ tt w) by (apply run_guard; unfold nonneg; lia).
      rewrite (run_bind _ _ _ w w) by reflexivity. unfold upd_tok.
      rewrite (run_bind _ _ _ k w) by (apply run_get_tok; auto).
      unfold tk_write_allowance. destruct (negb ((0 <? amt) && (ex <? w_seq w))) eqn:B; [|lia].
      eexists. reflexivity.
  - intros sp from to amt M. rewrite La in *. split.
    + intros [w' X]. apply tok_transfer_from_ok in X. destruct X as [A [P [k0 [k1 [k2 [S [Tr [_ U]]]]]]]]. rewrite authed_none in A.
      pose proof (proj1 U) as E0. rewrite Hk in E0. inversion E0; subst k0.
      apply tk_spend_allowance_ok in S; [|exact P]. cbv zeta in S. destruct S as [S1 [_ [_ [S2 _]]]].
      split; [exact A|]. split; [lia|]. rewrite !Bl.
      assert (Eb : forall a, tk_balance a k1 = tk_balance a k) by (intros a; unfold tk_balance; rewrite S2; reflexivity).
      pose proof (te_le _ _ _ _ _ Tr) as L1. pose proof (te_fit _ _ _ _ _ Tr) as L2. rewrite (te_bal _ _ _ _ _ Tr) in L2.
      rewrite !Eb, !Z.eqb_refl in *. split; [lia|]. destruct (Z.eq_dec from to); [auto|right].
      destruct (Z.eqb_spec to from); [congruence|]. unfold ind in L2. lia.
    + intros [A [L1 [L2 F]]]. unfold tok_transfer_from.
      rewrite (run_bind _ _ _ tt w) by (apply run_auth; rewrite authed_none; auto).
      rewrite (run_bind _ _ _ tt w) by (apply run_guard; unfold nonneg; lia).
      rewrite (run_bind _ _ _ w w) by reflexivity. unfold upd_tok.
      rewrite (run_bind _ _ _ k w) by (apply run_get_tok; auto).
      destruct (spend_allowance_runs (w_seq w) from sp amt k TG L1 M) as [k' [S1 S2]]. rewrite S1. unfold rbind at 1.
      assert (Eb : forall a, tk_balance a k' = tk_balance a k) by (intros a; unfold tk_balance; rewrite S2; reflexivity).
      rewrite !Bl in *. pose proof (Rg from). pose proof (Rg to).
      assert (E1 : tk_spend from amt k' = Ok (tk_write_balance from (tk_balance from k' - amt) k')).
      { unfold tk_spend. rewrite Eb. destruct (Z.ltb_spec (tk_balance from k) amt); [lia|]. unfold rbind, guard. cbn [negb].
        unfold sub_i. rewrite chk_ok; [reflexivity|]. unfold in_i128, I128_MIN, I128_MAX in *. lia. }
      rewrite E1. unfold rbind at 1. unfold tk_receive. rewrite tk_balance_write, !Eb.
      unfold add_i. rewrite chk_ok.
      2:{ unfold in_i128, I128_MIN, I128_MAX in *. destruct (Z.eqb_spec to from) as [->|]; [lia|]. destruct F; [congruence|]. lia. }
      eexists. reflexivity.
  - intros sp from amt M. rewrite La in *. split.
    + intros [w' X]. apply tok_burn_from_ok in X. destruct X as [A [P [k0 [k1 [S [Le U]]]]]]. rewrite authed_none in A.
      pose proof (proj1 U) as E0. rewrite Hk in E0. inversion E0; subst k0.
      apply tk_spend_allowance_ok in S; [|exact P]. cbv zeta in S. destruct S as [S1 [_ [_ [S2 _]]]].
      split; [exact A|]. split; [lia|]. rewrite !Bl. unfold tk_balance in *. rewrite S2 in Le. exact Le.
    + intros [A [L1 L2]]. unfold tok_burn_from.
      rewrite (run_bind _ _ _ tt w) by (apply run_auth; rewrite authed_none; auto).
      rewrite (run_bind _ _ _ tt w) by (apply run_guard; unfold nonneg; lia).
      rewrite (run_bind _ _ _ w w) by reflexivity. unfold upd_tok.
      rewrite (run_bind _ _ _ k w) by (apply run_get_tok; auto).
      destruct (spend_allowance_runs (w_seq w) from sp amt k TG L1 M) as [k' [S1 S2]]. rewrite S1. unfold rbind at 1.
      assert (Eb : forall a, tk_balance a k' = tk_balance a k) by (intros a; unfold tk_balance; rewrite S2; reflexivity).
      rewrite !Bl in *. pose proof (Rg from).
      assert (E1 : tk_spend from amt k' = Ok (tk_write_balance from (tk_balance from k' - amt) k')).
      { unfold tk_spend. rewrite Eb. destruct (Z.ltb_spec (tk_balance from k) amt); [lia|]. unfold rbind, guard. cbn [negb].
        unfold sub_i. rewrite chk_ok; [reflexivity|]. unfold in_i128, I128_MIN, I128_MAX in *. lia. }
      rewrite E1. eexists. reflexivity.
Qed.
Print Assumptions C125_token_calls_succeed_iff.

(** ** C126 staking *)
Theorem C126_bond_succeeds_iff H w e self s u amt : reachable H w -> stake_at w self s ->
  (exists w', stake_bond e None self u amt w = Ok (tt, w')) <->
  (signs e u = true /\ s_minbond s <= amt <= bal w (s_lp s) u /\
   bal w (s_lp s) self + amt <= I128_MAX /\ s_total s + amt <= I128_MAX).
Proof.
  intros R E. pose proof (reach_stake _ _ R _ _ E) as I. pose proof (reach_good _ _ R) as G.
  pose proof (proj1 (reach_now _ _ R)) as P. pose proof (gd_cstake _ G _ _ E) as Hc.
  pose proof (gd_pos _ G _ _ Hc) as Pself. pose proof (sv_min _ _ _ I) as Mn. pose proof (sv_total _ _ _ I) as ST.
  pose proof (user_total_le _ _ _ u I P) as UL.
  split.
  - intros [w' X]. apply stake_bond_ok in X. destruct X as [s0 [s' [B1 B2 B3 B4 B5 B6 [w1 [M Ew]] _]]].
    unfold stake_at in E. rewrite E in B2. inversion B2; subst s0. rewrite authed_none in B3.
    assert (Nu : u <> self). { intros ->. rewrite signs_neg in B3 by lia. discriminate. }
    pose proof (mv_le _ _ _ _ _ _ M). pose proof (mv_fit _ _ _ _ _ _ M) as F.
    rewrite (mv_bal _ _ _ _ _ _ M), !Z.eqb_refl in F. destruct (Z.eqb_spec self u); [congruence|]. unfold ind in F. cbn [andb] in F.
    split; [exact B3|]. lia.
  - intros [Sg [L [F1 F2]]]. 
    assert (Nu : u <> self). { intros ->. rewrite signs_neg in Sg by lia. discriminate. }
    unfold stake_bond. rewrite (run_bind _ _ _ tt w) by (apply run_enter; auto).
    rewrite (run_bind _ _ _ tt w) by (apply run_auth; rewrite authed_none; auto).
    rewrite (run_bind _ _ _ s w) by (apply run_get_stake; auto).
    rewrite (run_bind _ _ _ tt w) by (apply run_guard; lia).
    destruct (run_transfer e (Some self) (s_lp s) u self amt w G) as [w1 [X1 M1]]; auto; try lia.
    { unfold authed. rewrite Sg. auto. }
    { apply (bal_is_tok w _ u). lia. }
    rewrite (run_bind _ _ _ tt w1) by exact X1. rewrite (run_bind _ _ _ _ w1) by apply run_now. cbv zeta.
    rewrite (run_bind _ _ _ (b_total (s_user s u) + amt) w1) by (apply run_lift, chk_ok; unfold in_i128, I128_MIN; lia).
    rewrite (run_bind _ _ _ (s_total s + amt) w1) by (apply run_lift, chk_ok; unfold in_i128, I128_MIN; lia).
    eexists. reflexivity.
Qed.
Print Assumptions C126_bond_succeeds_iff.

Theorem C126_unbond_succeeds_iff H w e self s u amt ts : reachable H w -> stake_at w self s ->
  (exists w', stake_unbond e None self u amt ts w = Ok (tt, w')) <->
  (signs e u = true /\ (exists k, In k (stakes_of s u) /\ k_amt k = amt /\ k_ts k = ts) /\
   amt <= bal w (s_lp s) self /\ bal w (s_lp s) u + amt <= I128_MAX).
Proof.
  intros R E. pose proof (reach_stake _ _ R _ _ E) as I. pose proof (reach_good _ _ R) as G.
  pose proof (proj1 (reach_now _ _ R)) as P. pose proof (gd_cstake _ G _ _ E) as Hc.
  pose proof (gd_pos _ G _ _ Hc) as Pself. pose proof (sv_total _ _ _ I) as ST.
  pose proof (s_user_ok _ _ _ u I P) as U. pose proof (user_total_le _ _ _ u I P) as UL.
  split.
  - intros [w' X]. apply stake_unbond_ok in X. destruct X as [s0 [s' [l' [B1 B2 B3 B4 [w1 [M Ew]] _]]]].
    unfold stake_at in E. rewrite E in B2. inversion B2; subst s0. rewrite authed_none in B3.
    assert (Nu : u <> self). { intros ->. rewrite signs_neg in B3 by lia. discriminate. }
    apply remove_stake_ok in B4. destruct B4 as [k [K1 [K2 [K3 _]]]]. rewrite stakes_user in K1.
    pose proof (mv_le _ _ _ _ _ _ M). pose proof (mv_fit _ _ _ _ _ _ M) as F.
    rewrite (mv_bal _ _ _ _ _ _ M), !Z.eqb_refl in F. destruct (Z.eqb_spec u self); [congruence|]. unfold ind in F. cbn [andb] in F.
    split; [exact B3|]. split; [exists k; auto|]. lia.
  - intros [Sg [[k [K1 [<- <-]]] [L F]]].
    assert (Nu : u <> self). { intros ->. rewrite signs_neg in Sg by lia. discriminate. }
    rewrite <- stakes_user in K1.
    destruct (remove_stake_runs _ _ K1) as [l' El].
    pose proof (remove_stake_ok _ _ _ _ El) as [k0 [K2 [K3 [K4 [K5 [K6 _]]]]]].
    destruct U as [U1 U2 U3]. pose proof (U3 _ K1) as [KP _].
    assert (S1 : k_amt k <= b_total (s_user s u)).
    { rewrite U1. unfold stakes_sum. rewrite (K5 k_amt), K3. enough (0 <= ksum k_amt l') by lia.
      assert (A : forall x, In x l' -> 0 <= k_amt x) by (intros x Ix; specialize (U3 x (K6 x Ix)); lia).
      clear - A. induction l' as [|x l IH]; simpl; [lia|]. pose proof (A x ltac:(simpl; auto)).
      specialize (IH ltac:(intros; apply A; simpl; auto)). lia. }
    unfold stake_unbond. rewrite (run_bind _ _ _ tt w) by (apply run_enter; auto).
    rewrite (run_bind _ _ _ tt w) by (apply run_auth; rewrite authed_none; auto).
    rewrite (run_bind _ _ _ s w) by (apply run_get_stake; auto). cbv zeta.
    rewrite (run_bind _ _ _ l' w) by (apply run_lift; exact El).
    rewrite (run_bind _ _ _ (b_total (s_user s u) - k_amt k) w) by (apply run_lift, chk_ok; unfold in_i128, I128_MIN; lia).
    destruct (run_transfer e (Some self) (s_lp s) self u (k_amt k) w G) as [w1 [X1 M1]]; auto; try lia.
    { unfold authed. rewrite Z.eqb_refl. apply orb_true_r. }
    { apply (bal_is_tok w _ self). lia. }
    rewrite (run_bind _ _ _ tt w1) by exact X1.
    rewrite (run_bind _ _ _ (s_total s - k_amt k) w1) by (apply run_lift, chk_ok; unfold in_i128, I128_MIN; lia).
    eexists. reflexivity.
Qed.
Print Assumptions C126_unbond_succeeds_iff.

Theorem C126_distribute_succeeds_iff H w e self s u amt a : reachable H w -> stake_at w self s ->
  (exists w', stake_distribute e None self u amt a w = Ok (tt, w')) <->
  (signs e u = true /\ (u = s_manager s \/ u = s_owner s) /\ In a (s_dists s) /\ is_tok w a /\
   0 <= amt <= bal w a u /\ bal w a self + amt <= I128_MAX).
Proof.
  intros R E. pose proof (reach_stake _ _ R _ _ E) as I. pose proof (reach_good _ _ R) as G.
  pose proof (gd_cstake _ G _ _ E) as Hc. pose proof (gd_pos _ G _ _ Hc) as Pself.
  split.
  - intros [w' X]. pose proof X as X0. apply stake_distribute_ok in X. destruct X as [s0 [s' [h [B1 B2 B3 B4 B5 B6 M Ew]]]].
    unfold stake_at in E. rewrite E in B2. inversion B2; subst s0. rewrite authed_none in B3.
    assert (Nu : u <> self). { intros ->. rewrite signs_neg in B3 by lia. discriminate. }
    pose proof (mv_le _ _ _ _ _ _ M) as L. pose proof (mv_fit _ _ _ _ _ _ M) as F.
    rewrite (mv_bal _ _ _ _ _ _ M), !Z.eqb_refl in F. destruct (Z.eqb_spec self u); [congruence|]. unfold ind in F. cbn [andb] in F.
    change (bal (set_stake w _) a u) with (bal w a u) in L. change (bal (set_stake w _) a self) with (bal w a self) in F.
    split; [exact B3|]. split; [exact B4|]. split; [exact B5|]. split; [|split; [split; [apply (mv_pos _ _ _ _ _ _ M)|lia]|lia]].
    unfold stake_distribute in X0. rstep X0. winv.
    match goal with K : tok_transfer _ _ _ _ _ _ _ = Ok _ |- _ => apply tok_transfer_ok in K; destruct K as [_ [k [k' [[U1 _] _]]]] end.
    exists k. exact U1.
  - intros [Sg [Ro [Ia [T [L F]]]]].
    assert (Nu : u <> self). { intros ->. rewrite signs_neg in Sg by lia. discriminate. }
    pose proof (proj1 (sv_rh _ _ _ I a) Ia) as Fm. unfold fmem in Fm. destruct (fget a (s_rh s)) as [h|] eqn:Eh; [|discriminate].
    unfold stake_distribute. rewrite (run_bind _ _ _ tt w) by (apply run_enter; auto).
    rewrite (run_bind _ _ _ tt w) by (apply run_auth; rewrite authed_none; auto).
    rewrite (run_bind _ _ _ s w) by (apply run_get_stake; auto).
    rewrite (run_bind _ _ _ tt w) by (apply run_guard; lia).
    rewrite (run_bind _ _ _ tt w).
    2:{ apply run_guard. unfold zmem. apply existsb_exists. exists a. split; [exact Ia|apply Z.eqb_refl]. }
    rewrite (run_bind _ _ _ _ w) by apply run_now.
    rewrite (run_bind _ _ _ h w) by (rewrite Eh; reflexivity).
    match goal with |- exists w', mbind (put_stake self ?x) ?k w = _ =>
      pose proof (eq_refl : put_stake self x w = Ok (tt, set_stake w (fset self x (w_stake w)))) as PX;
      set (w1 := set_stake w (fset self x (w_stake w))) in * end.
    rewrite (run_bind _ _ _ tt w1) by exact PX.
    destruct (frame_good _ _ KStake _ _ _ _ (frame_put_stake e self _) PX G Hc) as [G1 Hc1].
    destruct (run_transfer e (Some self) a u self amt w1 G1) as [w2 [X2 _]]; auto.
    { unfold authed. rewrite Sg. auto. }
    eauto.
Qed.
Print Assumptions C126_distribute_succeeds_iff.
