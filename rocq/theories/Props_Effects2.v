(** Complete effects of the calls that move value: pool deposits and withdrawals (C153), staking (C154) and
    vesting (C155).  Each theorem gives the caller's contract record after the call, every balance and every
    supply, and says that the rest of the ledger is as before. *)
From Coq Require Import ZArith List Bool Lia.
From Coq Require Import ZifyBool.
From Verif Require Import Base FMap Decimal DecimalProofs Curve World Token TokenProofs Frame Stake Pool PoolProofs
  Stable StableProofs Rewards Vest Factory Router System SysFrame SysInv SysPool SysStable SysSupply
  SysVest SysStake SysRewards SysFact Script Runs Props_Token Props_Pool Props_Stable Props_Vest Props_Stake Props_Live
  Props_LiveTok Props_LiveStable Props_LiveStake Props_Factory Props_LiveFact Props_LiveVest Props_LiveMisc Props_Calls Props_Effects.
Import ListNotations.
Open Scope Z_scope.

(** the ledger [w'] differs from [w] at most in token balances and in the storage of the contract [self],
    which is of kind [kd] *)
Record elsewhere_same (kd : kind) (self : Addr) (w w' : World) : Prop := {
  es_now : w_now w' = w_now w;
  es_seq : w_seq w' = w_seq w;
  es_code : w_code w' = w_code w;
  es_wasm : w_wasm w' = w_wasm w;
  es_pool : forall c, (kd = KPool /\ c = self) \/ fget c (w_pool w') = fget c (w_pool w);
  es_stable : forall c, (kd = KStable /\ c = self) \/ fget c (w_stable w') = fget c (w_stable w);
  es_stake : forall c, (kd = KStake /\ c = self) \/ fget c (w_stake w') = fget c (w_stake w);
  es_rewards : forall c, (kd = KRewards /\ c = self) \/ fget c (w_rewards w') = fget c (w_rewards w);
  es_vest : forall c, (kd = KVest /\ c = self) \/ fget c (w_vest w') = fget c (w_vest w);
  es_fact : w_fact w' = w_fact w;
  es_hop : w_hop w' = w_hop w;
  es_trader : w_trader w' = w_trader w }.

Section Elsewhere.
  Variables (kd : kind) (self : Addr).
  Notation E := (elsewhere_same kd self).
  Lemma es_refl w : E w w.
  Proof. constructor; auto. Qed.
  Lemma es_trans a b c : E a b -> E b c -> E a c.
  Proof.
    intros [A1 A2 A3 A4 A5 A6 A7 A8 A9 A10 A11 A12] [B1 B2 B3 B4 B5 B6 B7 B8 B9 B10 B11 B12].
    constructor; try congruence; intros x;
      [destruct (A5 x), (B5 x)|destruct (A6 x), (B6 x)|destruct (A7 x), (B7 x)|destruct (A8 x), (B8 x)|destruct (A9 x), (B9 x)];
      auto; right; congruence.
  Qed.
  Lemma es_bind {A B} (m : ST World A) (k : A -> ST World B) : safe E m -> (forall a, safe E (k a)) -> safe E (mbind m k).
  Proof. apply safe_bind. apply es_trans. Qed.
  Lemma es_of_pure {A} (m : ST World A) : pure m -> safe E m.
  Proof. apply safe_pure. apply es_refl. Qed.
  Lemma es_upd t f : safe E (upd_tok t f).
  Proof.
    intros w u w' H. apply upd_tok_ok in H. destruct H as [k [k' [_ [_ ->]]]]. constructor; auto.
  Qed.
  Lemma es_transfer e c t from to amt : safe E (tok_transfer e c t from to amt).
  Proof. unfold tok_transfer. do 2 (apply es_bind; [apply es_of_pure; pure_tac|intro]). apply es_upd. Qed.
  Lemma es_mint e c t to amt : safe E (tok_mint e c t to amt).
  Proof. unfold tok_mint. do 3 (apply es_bind; [apply es_of_pure; pure_tac|intro]). apply es_upd. Qed.
  Lemma es_burn e c t from amt : safe E (tok_burn e c t from amt).
  Proof. unfold tok_burn. do 2 (apply es_bind; [apply es_of_pure; pure_tac|intro]). apply es_upd. Qed.
End Elsewhere.
Lemma es_put_pool self p : safe (elsewhere_same KPool self) (put_pool self p).
Proof.
  intros w u w' H. apply mmod_ok in H. inversion H; subst. constructor; simpl; auto.
  intros c. rewrite fget_set. destruct (Z.eqb_spec c self); auto.
Qed.
Lemma es_put_stable self p : safe (elsewhere_same KStable self) (put_stable self p).
Proof.
  intros w u w' H. apply mmod_ok in H. inversion H; subst. constructor; simpl; auto.
  intros c. rewrite fget_set. destruct (Z.eqb_spec c self); auto.
Qed.
Lemma es_put_stake self p : safe (elsewhere_same KStake self) (put_stake self p).
Proof.
  intros w u w' H. apply mmod_ok in H. inversion H; subst. constructor; simpl; auto.
  intros c. rewrite fget_set. destruct (Z.eqb_spec c self); auto.
Qed.
Lemma es_put_vest self p : safe (elsewhere_same KVest self) (put_vest self p).
Proof.
  intros w u w' H. apply mmod_ok in H. inversion H; subst. constructor; simpl; auto.
  intros c. rewrite fget_set. destruct (Z.eqb_spec c self); auto.
Qed.
Ltac es_tac :=
  repeat first
  [ solve [apply es_of_pure; auto with pure]
  | apply es_transfer | apply es_mint | apply es_burn
  | apply es_put_pool | apply es_put_stable | apply es_put_stake | apply es_put_vest
  | apply es_bind; [|intro]
  | match goal with
    | |- safe _ (let '(_, _) := ?p in _) => destruct p
    | |- safe _ (if ?b then _ else _) => destruct b
    | |- safe _ (mwhen ?b _) => unfold mwhen; destruct b
    | |- safe _ (match ?o with _ => _ end) => destruct o
    end
  | progress unfold mint_shares, burn_shares, new_share_total, stable_mint_shares, stable_burn_shares,
      pool_provide, pool_withdraw, stable_provide, stable_withdraw,
      stake_bond, stake_unbond, stake_distribute, stake_withdraw_rewards, vest_create, vest_claim, vest_mint
  | progress cbv beta zeta ].

Lemma es_pool_provide e c self u da mina db minb cu dl : safe (elsewhere_same KPool self) (pool_provide e c self u da mina db minb cu dl).
Proof. es_tac. Qed.
Lemma es_pool_withdraw e c self u s a b dl : safe (elsewhere_same KPool self) (pool_withdraw e c self u s a b dl).
Proof. es_tac. Qed.
Lemma es_stable_provide e c self u da db cu dl m : safe (elsewhere_same KStable self) (stable_provide e c self u da db cu dl m).
Proof. es_tac. Qed.
Lemma es_stable_withdraw e c self u s a b dl : safe (elsewhere_same KStable self) (stable_withdraw e c self u s a b dl).
Proof. es_tac. Qed.
Lemma es_bond e c self u amt : safe (elsewhere_same KStake self) (stake_bond e c self u amt).
Proof. es_tac. Qed.
Lemma es_unbond e c self u amt ts : safe (elsewhere_same KStake self) (stake_unbond e c self u amt ts).
Proof. es_tac. Qed.
Lemma es_distribute e c self u amt a : safe (elsewhere_same KStake self) (stake_distribute e c self u amt a).
Proof. es_tac. Qed.
Lemma es_withdraw_rewards e self u : safe (elsewhere_same KStake self) (stake_withdraw_rewards e self u).
Proof.
  unfold stake_withdraw_rewards. do 3 (apply es_bind; [es_tac|intro]). cbv zeta. apply es_bind; [|intro; es_tac].
  induction (s_dists a0); simpl; es_tac. auto.
Qed.
Lemma es_vest_create e c self l : safe (elsewhere_same KVest self) (vest_create e c self l).
Proof. es_tac. Qed.
Lemma es_vest_claim e c self u i : safe (elsewhere_same KVest self) (vest_claim e c self u i).
Proof. es_tac. Qed.
Lemma es_vest_mint e c self u amt : safe (elsewhere_same KVest self) (vest_mint e c self u amt).
Proof. es_tac. Qed.

(** ** C153 *)
Theorem C153_withdrawal_effect H w e self p u s m1 m2 dl a b w' :
  reachable H w -> pool_at w self p -> pool_withdraw e None self u s m1 m2 dl w = Ok ((a, b), w') ->
  let ratio := s * 10^18 / p_total p in
  a = p_ra p * ratio / 10^18 /\ b = p_rb p * ratio / 10^18 /\
  pool_at w' self (mkPool (p_ta p) (p_tb p) (p_share p) (p_stake p) (p_fee p) (p_feerec p) (p_maxslip p) (p_maxspread p)
    (p_maxref p) (p_defslip p) (p_admin p) (p_total p - s) (p_ra p - a) (p_rb p - b)) /\
  (forall t x, bal w' t x = bal w t x - on ((t =? p_share p) && (x =? u)) s
      + on ((t =? p_ta p) && (x =? u)) a - on ((t =? p_ta p) && (x =? self)) a
      + on ((t =? p_tb p) && (x =? u)) b - on ((t =? p_tb p) && (x =? self)) b) /\
  (forall t, supply w' t = supply w t - on (t =? p_share p) s) /\
  elsewhere_same KPool self w w'.
Proof.
  intros R Hp X ratio. pose proof (reach_good _ _ R) as G. pose proof (gd_cpool _ G _ _ Hp) as Hc.
  pose proof (reach_pool _ _ R _ _ Hp) as I. pose proof (es_pool_withdraw _ _ _ _ _ _ _ _ _ _ _ X) as ES.
  apply pool_withdraw_ok in X. destruct X as [Dl [Au [p0 [ratio0 [w1 [w2 [w3 [w4 E]]]]]]]].
  destruct E as [Ep _ [Ps [Pma Pmb]] Nt Er Ea Eb [Ma Mb] Ei Ebn Eo1 Eo2 Ee Ep'].
  unfold pool_at in *. rewrite Hp in Ep. inversion Ep; subst p0.
  assert (T1 : 1000 <= p_total p) by (destruct (pi_min _ _ _ I); tauto).
  pose proof (pi_ra _ _ _ I) as Ra. pose proof (pi_rb _ _ _ I) as Rb.
  assert (Er' := from_ratio_fits _ _ _ Er). rewrite from_ratio_runs in Er by lia.
  change DEC with (10^18) in *. assert (Er1 : ratio0 = ratio) by (unfold ratio; congruence). subst ratio0.
  assert (Pr : 0 <= ratio) by (apply Z.div_pos; lia).
  assert (Ea' := mul_dec_fits _ _ _ Ea). rewrite mul_dec_runs in Ea by lia.
  assert (Eb' := mul_dec_fits _ _ _ Eb). rewrite mul_dec_runs in Eb by lia. change DEC with (10^18) in *.
  split; [congruence|]. split; [congruence|]. split; [exact Ep'|].
  split; [|split; [|exact ES]].
  - intros t x. rewrite (bal_wtok _ _ _ _ Ee), (mv_bal _ _ _ _ _ _ Eo2), (mv_bal _ _ _ _ _ _ Eo1), (bn_bal _ _ _ _ _ Ebn), (mv_bal _ _ _ _ _ _ Ei).
    change on with ind. lia.
  - intros t. rewrite (supply_wtok _ _ _ Ee), (mv_sup _ _ _ _ _ _ Eo2), (mv_sup _ _ _ _ _ _ Eo1), (bn_sup _ _ _ _ _ Ebn), (mv_sup _ _ _ _ _ _ Ei).
    reflexivity.
Qed.
Print Assumptions C153_withdrawal_effect.

Theorem C153_deposit_effect H w e self p u da mina db minb custom dl w' :
  reachable H w -> pool_at w self p -> pool_provide e None self u da mina db minb custom dl w = Ok (tt, w') ->
  exists xa xb a b n locked, da = Some xa /\ db = Some xb /\
  (* the amounts taken and the new share total *)
  (p_total p = 0 -> a = xa /\ b = xb /\ n = Z.sqrt (xa * xb) /\ locked = 1000) /\
  (p_total p <> 0 -> a = Z.min xa (xb * p_ra p / p_rb p) /\ b = Z.min xb (xa * p_rb p / p_ra p) /\ locked = 0 /\
     n = Z.min ((bal w (p_ta p) self + a) * p_total p / p_ra p) ((bal w (p_tb p) self + b) * p_total p / p_rb p)) /\
  pool_at w' self (mkPool (p_ta p) (p_tb p) (p_share p) (p_stake p) (p_fee p) (p_feerec p) (p_maxslip p) (p_maxspread p)
    (p_maxref p) (p_defslip p) (p_admin p) n (bal w (p_ta p) self + a) (bal w (p_tb p) self + b)) /\
  (forall t x, bal w' t x = bal w t x
      - on ((t =? p_ta p) && (x =? u)) a + on ((t =? p_ta p) && (x =? self)) a
      - on ((t =? p_tb p) && (x =? u)) b + on ((t =? p_tb p) && (x =? self)) b
      + on ((t =? p_share p) && (x =? u)) (n - p_total p - locked) + on ((t =? p_share p) && (x =? self)) locked) /\
  (forall t, supply w' t = supply w t + on (t =? p_share p) (n - p_total p)) /\
  elsewhere_same KPool self w w'.
Proof.
  intros R Hp X. pose proof (reach_good _ _ R) as G.
  pose proof (gd_cpool _ G _ _ Hp) as Hc. pose proof (reach_pool _ _ R _ _ Hp) as I.
  pose proof (es_pool_provide _ _ _ _ _ _ _ _ _ _ _ _ _ X) as ES.
  destruct (deposit_facts _ _ _ _ _ _ _ _ _ _ _ _ _ _ R (fun Q : @None Addr = Some self => ltac:(discriminate Q)) Hp X) as [p' [xa [xb [a [b [m [lk [Ep F]]]]]]]].
  apply pool_provide_ok in X. destruct X as [Tm [Au [_ [p0 [xa0 [xb0 [a0 [b0 [w1 [w2 [w4 E]]]]]]]]]]].
  assert (Ns : u <> self) by (eapply (sender_not_self H w e None self); [exact R|exact Hc|discriminate|exact Au]).
  destruct E as [Ep0 _ Eda Edb _ En Ea Eb [n [Ep' Hn]] Ee].
  unfold pool_at in *. rewrite Hp in Ep0. inversion Ep0; subst p0.
  rewrite (df_da F) in Eda. inversion Eda; subst xa0. rewrite (df_db F) in Edb. inversion Edb; subst xb0.
  pose proof (pi_ord _ _ _ I) as Hord.
  assert (B2 : forall t x, bal w2 t x = bal w t x
      - ind ((t =? p_ta p) && (x =? u)) a0 + ind ((t =? p_ta p) && (x =? self)) a0
      - ind ((t =? p_tb p) && (x =? u)) b0 + ind ((t =? p_tb p) && (x =? self)) b0).
  { intros t x. rewrite (mv_bal _ _ _ _ _ _ Eb), (mv_bal _ _ _ _ _ _ Ea). lia. }
  assert (Ba : bal w2 (p_ta p) self = bal w (p_ta p) self + a0).
  { rewrite B2. destruct (Z.eqb_spec (p_ta p) (p_tb p)); [lia|].
    destruct (Z.eqb_spec self u); [congruence|]. rewrite !Z.eqb_refl. unfold ind. simpl. lia. }
  assert (Bb : bal w2 (p_tb p) self = bal w (p_tb p) self + b0).
  { rewrite B2. destruct (Z.eqb_spec (p_tb p) (p_ta p)); [lia|].
    destruct (Z.eqb_spec self u); [congruence|]. rewrite !Z.eqb_refl. unfold ind. simpl. lia. }
  rewrite Ep in Ep'. inversion Ep'; subst p'.
  pose proof (df_ra F) as Qa. pose proof (df_rb F) as Qb. cbn [p_ra p_rb set_p_res set_p_total] in Qa, Qb.
  assert (a0 = a) by lia. assert (b0 = b) by lia. subst a0 b0.
  pose proof (df_total F) as Qt. cbn [p_total set_p_res set_p_total] in Qt.
  exists xa, xb, a, b, n, lk. split; [apply (df_da F)|]. split; [apply (df_db F)|].
  split; [|split; [|split; [|split; [|split; [|exact ES]]]]].
  - intros Q. destruct (df_first F Q) as [-> [-> [Q2 Q3]]]. cbn [p_total set_p_res set_p_total] in Q2. auto.
  - intros Q. destruct (df_later F Q) as [Q1 [Q2 [Q3 [Q4 [Q5 _]]]]]. split; [exact Q4|]. split; [exact Q5|]. split; [exact Q1|].
    destruct Hn as [[_ [_ [_ Enn]]]|[Nf _]]; [|exfalso; apply Nf; auto].
    pose proof (pi_ra _ _ _ I). pose proof (pi_rb _ _ _ I). pose proof (mv_pos _ _ _ _ _ _ Ea). pose proof (mv_pos _ _ _ _ _ _ Eb).
    assert (0 <= p_total p) by (destruct (pi_min _ _ _ I); lia).
    rewrite Ba, Bb, !quot_nonneg_div in Enn by nia. exact Enn.
  - rewrite Ep, Ba, Bb. reflexivity.
  - intros t x. rewrite (df_bal F). replace m with (n - p_total p - lk) by lia. reflexivity.
  - intros t. rewrite (supply_wtok _ _ _ Ee). destruct Hn as [[_ [_ [Mt _]]]|[_ [_ [_ [w3 [M0 Mt]]]]]].
    + rewrite (mt_sup _ _ _ _ _ Mt), (mv_sup _ _ _ _ _ _ Eb), (mv_sup _ _ _ _ _ _ Ea). reflexivity.
    + rewrite (mt_sup _ _ _ _ _ Mt), (mt_sup _ _ _ _ _ M0), (mv_sup _ _ _ _ _ _ Eb), (mv_sup _ _ _ _ _ _ Ea).
      unfold ind, on. destruct (t =? p_share p); lia.
Qed.
Print Assumptions C153_deposit_effect.

Theorem C153_stable_withdrawal_effect H w e self p u s m1 m2 dl a b w' :
  reachable H w -> stable_at w self p -> stable_withdraw e None self u s m1 m2 dl w = Ok ((a, b), w') ->
  let ratio := s * 10^18 / l_total p in
  a = l_ra p * ratio / 10^18 /\ b = l_rb p * ratio / 10^18 /\
  (exists p', stable_at w' self p' /\ l_total p' = l_total p - s /\ l_ra p' = l_ra p - a /\ l_rb p' = l_rb p - b /\
     p = set_l_res (set_l_total p' (l_total p)) (l_ra p) (l_rb p)) /\
  (forall t x, bal w' t x = bal w t x - on ((t =? l_share p) && (x =? u)) s
      + on ((t =? l_ta p) && (x =? u)) a - on ((t =? l_ta p) && (x =? self)) a
      + on ((t =? l_tb p) && (x =? u)) b - on ((t =? l_tb p) && (x =? self)) b) /\
  (forall t, supply w' t = supply w t - on (t =? l_share p) s) /\
  elsewhere_same KStable self w w'.
Proof.
  intros R Hp X ratio. pose proof (reach_good _ _ R) as G. pose proof (gd_cstable _ G _ _ Hp) as Hc.
  pose proof (reach_stable _ _ R _ _ Hp) as I. pose proof (es_stable_withdraw _ _ _ _ _ _ _ _ _ _ _ X) as ES.
  apply stable_withdraw_ok in X. destruct X as [Dl [Au [p0 [ratio0 [w1 [w2 [w3 [w4 E]]]]]]]].
  destruct E as [Ep _ [Ps [Pma Pmb]] Nt Er Ea Eb [Ma Mb] Ei Ebn Eo1 Eo2 Ee Ep'].
  unfold stable_at in *. rewrite Hp in Ep. inversion Ep; subst p0.
  pose proof (li_tot _ _ _ I) as T1.
  pose proof (li_ra _ _ _ I) as Ra. pose proof (li_rb _ _ _ I) as Rb.
  assert (Er' := from_ratio_fits _ _ _ Er). rewrite from_ratio_runs in Er by lia.
  change DEC with (10^18) in *. assert (Er1 : ratio0 = ratio) by (unfold ratio; congruence). subst ratio0.
  assert (Pr : 0 <= ratio) by (apply Z.div_pos; lia).
  assert (Ea' := mul_dec_fits _ _ _ Ea). rewrite mul_dec_runs in Ea by lia.
  assert (Eb' := mul_dec_fits _ _ _ Eb). rewrite mul_dec_runs in Eb by lia. change DEC with (10^18) in *.
  split; [congruence|]. split; [congruence|].
  split; [|split; [|split; [|exact ES]]].
  - eexists. split; [exact Ep'|]. split; [reflexivity|]. split; [reflexivity|]. split; [reflexivity|]. destruct p; reflexivity.
  - intros t x. rewrite (bal_wtok _ _ _ _ Ee), (mv_bal _ _ _ _ _ _ Eo2), (mv_bal _ _ _ _ _ _ Eo1), (bn_bal _ _ _ _ _ Ebn), (mv_bal _ _ _ _ _ _ Ei).
    change on with ind. lia.
  - intros t. rewrite (supply_wtok _ _ _ Ee), (mv_sup _ _ _ _ _ _ Eo2), (mv_sup _ _ _ _ _ _ Eo1), (bn_sup _ _ _ _ _ Ebn), (mv_sup _ _ _ _ _ _ Ei).
    reflexivity.
Qed.
Print Assumptions C153_stable_withdrawal_effect.

(** ** C154: staking.  Every theorem names the whole stake record after the call. *)
Lemma remove_first l : forall amt ts l', remove_stake l amt ts = Ok l' ->
  exists l1 l2, l = l1 ++ mkStakeE amt ts :: l2 /\ l' = l1 ++ l2 /\ ~ In (mkStakeE amt ts) l1.
Proof.
  induction l as [|k l IH]; intros amt ts l' X; simpl in X; [discriminate|].
  destruct ((k_amt k =? amt) && (k_ts k =? ts)) eqn:B.
  - inversion X; subst. exists [], l'. apply andb_true_iff in B. destruct B as [B1 B2]. apply Z.eqb_eq in B1, B2.
    subst. split; [destruct k; reflexivity|]. split; [reflexivity|]. intros [].
  - rstep X. match goal with K : remove_stake l _ _ = Ok _ |- _ => destruct (IH _ _ _ K) as [l1 [l2 [-> [-> N]]]] end.
    exists (k :: l1), l2. split; [reflexivity|]. split; [reflexivity|]. intros [->|Q]; [|auto].
    simpl in B. rewrite !Z.eqb_refl in B. discriminate.
Qed.
Lemma b_total_staked w c s u : StakeInv w c s -> 0 <= w_now w -> b_total (s_user s u) = staked s u.
Proof.
  intros I P. pose proof (su_sum _ _ (s_user_ok _ _ _ u I P)) as Q. rewrite Q. unfold staked. rewrite <- stakes_user.
  unfold stakes_sum. try rewrite ksum_of. reflexivity.
Qed.

(** the record of one user *)
Definition user_rec (s : Stake) (u : Addr) (b : Bonding) : Prop := fget u (s_users s) = Some b.

Theorem C154_bond_effect H w e self s u amt w' : reachable H w -> stake_at w self s ->
  stake_bond e None self u amt w = Ok (tt, w') ->
  exists s', stake_at w' self s' /\
    s' = mkStake (s_lp s) (s_minbond s) (s_minreward s) (s_manager s) (s_owner s) (s_maxc s) (s_admin s)
           (s_total s + amt) (s_users s') (s_tsh s) (s_dists s) (s_rh s) /\
    user_rec s' u (mkBonding (stakes_of s u ++ [mkStakeE amt (w_now w)]) (last_claim s u) (staked s u + amt)) /\
    (forall x, x <> u -> fget x (s_users s') = fget x (s_users s)) /\
    (forall t x, bal w' t x = bal w t x - on ((t =? s_lp s) && (x =? u)) amt + on ((t =? s_lp s) && (x =? self)) amt) /\
    (forall t, supply w' t = supply w t) /\ elsewhere_same KStake self w w'.
Proof.
  intros R E X. pose proof (reach_stake _ _ R _ _ E) as I. pose proof (proj1 (reach_now _ _ R)) as P.
  pose proof (es_bond _ _ _ _ _ _ _ _ X) as ES. apply stake_bond_ok in X. destruct X as [s0 [s' [_ B2 _ _ _ _ [w1 [M Ew]] Es]]].
  unfold stake_at in *. rewrite E in B2. inversion B2; subst s0. clear B2.
  exists s'. split; [rewrite Ew; simpl; apply fget_set_same|]. split; [rewrite Es; reflexivity|].
  split; [unfold user_rec; rewrite Es; simpl; rewrite fget_set_same, (b_total_staked _ _ _ _ I P), stakes_user, last_user; reflexivity|].
  split; [intros x Nx; rewrite Es; simpl; rewrite fget_set; destruct (Z.eqb_spec x u); [congruence|reflexivity]|].
  split; [|split; [|exact ES]].
  - intros t x. rewrite (bal_wtok w1 w') by (rewrite Ew; reflexivity). apply (mv_bal _ _ _ _ _ _ M).
  - intros t. rewrite (supply_wtok w1 w') by (rewrite Ew; reflexivity). apply (mv_sup _ _ _ _ _ _ M).
Qed.
Print Assumptions C154_bond_effect.

Theorem C154_unbond_effect H w e self s u amt ts w' : reachable H w -> stake_at w self s ->
  stake_unbond e None self u amt ts w = Ok (tt, w') ->
  exists s' l1 l2, stake_at w' self s' /\
    s' = mkStake (s_lp s) (s_minbond s) (s_minreward s) (s_manager s) (s_owner s) (s_maxc s) (s_admin s)
           (s_total s - amt) (s_users s') (s_tsh s) (s_dists s) (s_rh s) /\
    (* the first entry that matches goes, the others keep their order *)
    stakes_of s u = l1 ++ mkStakeE amt ts :: l2 /\ ~ In (mkStakeE amt ts) l1 /\
    user_rec s' u (mkBonding (l1 ++ l2) (last_claim s u) (staked s u - amt)) /\
    (forall x, x <> u -> fget x (s_users s') = fget x (s_users s)) /\
    (forall t x, bal w' t x = bal w t x + on ((t =? s_lp s) && (x =? u)) amt - on ((t =? s_lp s) && (x =? self)) amt) /\
    (forall t, supply w' t = supply w t) /\ elsewhere_same KStake self w w'.
Proof.
  intros R E X. pose proof (reach_stake _ _ R _ _ E) as I. pose proof (proj1 (reach_now _ _ R)) as P.
  pose proof (es_unbond _ _ _ _ _ _ _ _ _ X) as ES. apply stake_unbond_ok in X. destruct X as [s0 [s' [l' [_ B2 _ B4 [w1 [M Ew]] Es]]]].
  unfold stake_at in *. rewrite E in B2. inversion B2; subst s0. clear B2.
  apply remove_first in B4. destruct B4 as [l1 [l2 [L1 [L2 L3]]]]. rewrite stakes_user in L1.
  exists s', l1, l2. split; [rewrite Ew; simpl; apply fget_set_same|]. split; [rewrite Es; reflexivity|].
  split; [exact L1|]. split; [exact L3|].
  split; [unfold user_rec; rewrite Es; simpl; rewrite fget_set_same, (b_total_staked _ _ _ _ I P), last_user, L2; reflexivity|].
  split; [intros x Nx; rewrite Es; simpl; rewrite fget_set; destruct (Z.eqb_spec x u); [congruence|reflexivity]|].
  split; [|split; [|exact ES]].
  - intros t x. rewrite (bal_wtok w1 w') by (rewrite Ew; reflexivity). rewrite (mv_bal _ _ _ _ _ _ M). change on with ind. lia.
  - intros t. rewrite (supply_wtok w1 w') by (rewrite Ew; reflexivity). apply (mv_sup _ _ _ _ _ _ M).
Qed.
Print Assumptions C154_unbond_effect.

Theorem C154_distribute_effect H w e self s u amt a w' : reachable H w -> stake_at w self s ->
  stake_distribute e None self u amt a w = Ok (tt, w') ->
  exists s' h h', stake_at w' self s' /\
    s' = mkStake (s_lp s) (s_minbond s) (s_minreward s) (s_manager s) (s_owner s) (s_maxc s) (s_admin s)
           (s_total s) (s_users s) (s_tsh s') (s_dists s) (s_rh s') /\
    (* the total stake and the amount are recorded under the present time; an earlier record of the same
       second is replaced *)
    (forall d, fget d (s_tsh s') = if d =? w_now w then Some (s_total s) else fget d (s_tsh s)) /\
    fget a (s_rh s) = Some h /\ fget a (s_rh s') = Some h' /\
    (forall d, fget d h' = if d =? w_now w then Some amt else fget d h) /\
    (forall x, x <> a -> fget x (s_rh s') = fget x (s_rh s)) /\
    (forall t x, bal w' t x = bal w t x - on ((t =? a) && (x =? u)) amt + on ((t =? a) && (x =? self)) amt) /\
    (forall t, supply w' t = supply w t) /\ elsewhere_same KStake self w w'.
Proof.
  intros R E X. pose proof (reach_stake _ _ R _ _ E) as I. pose proof (sv_total _ _ _ I) as ST.
  pose proof (es_distribute _ _ _ _ _ _ _ _ _ X) as ES. apply stake_distribute_ok in X. destruct X as [s0 [s' [h [_ B2 _ _ _ B6 M Es]]]].
  unfold stake_at in *. rewrite E in B2. inversion B2; subst s0. clear B2.
  pose proof (mv_pos _ _ _ _ _ _ M) as Pm. rewrite !as_u128_pos in Es by lia.
  exists s', h, (fset (w_now w) amt h). split; [rewrite (mv_rest _ _ _ _ _ _ M); simpl; apply fget_set_same|]. split; [rewrite Es; reflexivity|].
  split; [intros d; rewrite Es; simpl; apply fget_set|]. split; [exact B6|]. split; [rewrite Es; simpl; apply fget_set_same|].
  split; [intros d; apply fget_set|].
  split; [intros x Nx; rewrite Es; simpl; rewrite fget_set; destruct (Z.eqb_spec x a); [congruence|reflexivity]|].
  split; [|split; [|exact ES]].
  - intros t x. rewrite (mv_bal _ _ _ _ _ _ M). reflexivity.
  - intros t. rewrite (mv_sup _ _ _ _ _ _ M). reflexivity.
Qed.
Print Assumptions C154_distribute_effect.

Lemma pay_supply e self u s t b l : forall w r w', pay_rewards e self u s t b l w = Ok (r, w') -> forall x, supply w' x = supply w x.
Proof.
  induction l as [|a l IH]; intros w r w' X x; simpl in X; [inversion X; reflexivity|].
  apply mbind_ok in X. destruct X as [p [w0 [X0 X]]]. apply mlift_ok in X0. destruct X0 as [p1 [_ E1]]. inversion E1; subst.
  apply mbind_ok in X. destruct X as [q [w1 [X1 X]]]. pose proof (tok_transfer_moved _ _ _ _ _ _ _ _ _ X1) as [_ M].
  rewrite (IH _ _ _ X), (mv_sup _ _ _ _ _ _ M). reflexivity.
Qed.

Theorem C154_withdraw_rewards_effect H w e self s u w' : reachable H w -> stake_at w self s ->
  stake_withdraw_rewards e self u w = Ok (tt, w') ->
  exists s' l, stake_query_rewards self u w = Ok (l, w) /\ map fst l = s_dists s /\ stake_at w' self s' /\
    s' = mkStake (s_lp s) (s_minbond s) (s_minreward s) (s_manager s) (s_owner s) (s_maxc s) (s_admin s)
           (s_total s) (s_users s') (s_tsh s) (s_dists s) (s_rh s) /\
    user_rec s' u (mkBonding (stakes_of s u) (w_now w) (staked s u)) /\
    (forall x, x <> u -> fget x (s_users s') = fget x (s_users s)) /\
    (* of every listed token the user gets what the query says, and nothing else moves *)
    (forall t v x, In (t, v) l -> bal w' t x = bal w t x + on (x =? u) v - on (x =? self) v) /\
    (forall t x, ~ In t (s_dists s) -> bal w' t x = bal w t x) /\
    (forall t, supply w' t = supply w t) /\ elsewhere_same KStake self w w'.
Proof.
  intros R E X. pose proof (reach_stake _ _ R _ _ E) as I. pose proof (proj1 (reach_now _ _ R)) as P.
  pose proof (es_withdraw_rewards _ _ _ _ _ _ X) as ES. pose proof X as X0.
  assert (Su : forall t, supply w' t = supply w t).
  { intros t. unfold stake_withdraw_rewards in X0.
    apply mbind_ok in X0. destruct X0 as [z1 [v1 [Q X0]]]. apply enter_ok in Q. destruct Q as [_ ->].
    apply mbind_ok in X0. destruct X0 as [z2 [v2 [Q X0]]]. apply get_stake_ok in Q. destruct Q as [_ ->].
    apply mbind_ok in X0. destruct X0 as [z3 [v3 [Q X0]]]. inversion Q; subst z3 v3. cbv zeta in X0.
    apply mbind_ok in X0. destruct X0 as [z4 [v4 [Q4 X0]]]. apply mmod_ok in X0. inversion X0; subst.
    exact (pay_supply _ _ _ _ _ _ _ _ _ _ Q4 t). }
  apply stake_withdraw_ok in X; [|intros s0 E0; unfold stake_at in E; rewrite E in E0; inversion E0; subst; apply (sv_nodup _ _ _ I)].
  destruct X as [s0 [s' [B1 B2 B3 [w1 [M Ew]] Es]]]. pose proof E as E0. unfold stake_at in E. rewrite E in B2. inversion B2; subst s0.
  destruct (query_pending_runs s (w_now w) (s_user s u) (s_dists s)) as [l Q]; [intros a Ia; eexists; apply B3; auto|].
  assert (Ql : stake_query_rewards self u w = Ok (l, w)) by (rewrite (query_run _ _ _ _ _ R E0), Q; reflexivity).
  assert (Fl : map fst l = s_dists s) by (apply query_pending_ok in Q; apply Q).
  exists s', l. split; [exact Ql|]. split; [exact Fl|]. split; [unfold stake_at; rewrite Ew; simpl; apply fget_set_same|].
  split; [rewrite Es; reflexivity|].
  split; [unfold user_rec; rewrite Es; simpl; rewrite fget_set_same, (b_total_staked _ _ _ _ I P), stakes_user; reflexivity|].
  split; [intros x Nx; rewrite Es; simpl; rewrite fget_set; destruct (Z.eqb_spec x u); [congruence|reflexivity]|].
  split; [|split; [|split; [exact Su|exact ES]]].
  - intros t v x Iv.
    assert (C : claimable w self u t v) by (exists l; auto).
    destruct (claimable_pending _ _ _ _ _ _ _ R E0 C) as [Ia [Hp Pv]].
    pose proof (B3 t Ia) as Hp2. rewrite Hp in Hp2. inversion Hp2 as [Ev].
    rewrite (bal_wtok w1 w') by (rewrite Ew; reflexivity). rewrite (pd_bal _ _ _ _ _ _ M), (proj2 (zmem_in _ _) Ia), <- Ev.
    cbn [andb]. change on with ind. lia.
  - intros t x N. rewrite (bal_wtok w1 w') by (rewrite Ew; reflexivity). rewrite (pd_bal _ _ _ _ _ _ M).
    assert (zmem t (s_dists s) = false) as ->.
    { destruct (zmem t (s_dists s)) eqn:Z1; [|reflexivity]. apply zmem_in in Z1. contradiction. }
    unfold ind. cbn [andb]. lia.
Qed.
Print Assumptions C154_withdraw_rewards_effect.

(** ** C155: vesting *)
Theorem C155_claim_effect H w e self v u i w' : reachable H w -> vest_at w self v ->
  vest_claim e None self u i w = Ok (tt, w') ->
  exists v' x locked, entry_at w self u i x /\ cvalue (vi_sched x) (w_now w) = Ok locked /\
    vest_at w' self v' /\ v' = mkVest (v_admin v) (v_token v) (v_maxc v) (v_minter v) (v_ent v') /\
    (forall u' j y, entry_at w' self u' j y <->
       if (u' =? u) && (j =? i) then y = mkVInfo locked (vi_rcpt x) (vi_sched x) else entry_at w self u' j y) /\
    (forall t a, bal w' t a = bal w t a + on ((t =? v_token v) && (a =? u)) (vi_bal x - locked)
        - on ((t =? v_token v) && (a =? self)) (vi_bal x - locked)) /\
    (forall t, supply w' t = supply w t) /\ elsewhere_same KVest self w w'.
Proof.
  intros R E X. pose proof (es_vest_claim _ _ _ _ _ _ _ _ X) as ES. apply vest_claim_ok in X.
  destruct X as [v0 [x [locked [_ B2 _ B4 B5 B6 M Ev']]]]. pose proof E as E0. unfold vest_at in E. rewrite E in B2. inversion B2; subst v0.
  eexists _, x, locked. split; [apply (entry_iff _ _ _ _ _ _ E0); exact B4|]. split; [exact B5|]. split; [exact Ev'|].
  split; [reflexivity|]. split; [|split; [|split; [|exact ES]]].
  - intros u' j y. rewrite (entry_iff _ _ _ _ _ _ Ev'), entries_with. pose proof (entry_iff w self v u' j y E0) as Q.
    destruct (Z.eqb_spec u' u) as [->|]; [|symmetry; exact Q]. cbn [andb]. rewrite fget_set. destruct (Z.eqb_spec j i); [|symmetry; exact Q].
    split; congruence.
  - intros t a. rewrite (mv_bal _ _ _ _ _ _ M). change (bal (set_vest w _) t a) with (bal w t a). change on with ind. lia.
  - intros t. rewrite (mv_sup _ _ _ _ _ _ M). reflexivity.
Qed.
Print Assumptions C155_claim_effect.

Theorem C155_creation_effect H w e self v l w' : reachable H w -> vest_at w self v ->
  vest_create e None self l w = Ok (tt, w') ->
  let total := sum_of (fun uc => match cvalue (snd uc) 0 with Ok T => T | Err _ => 0 end) l in
  exists v', vest_at w' self v' /\ v' = mkVest (v_admin v) (v_token v) (v_maxc v) (v_minter v) (v_ent v') /\
    (* the old entries stay; every recipient gets one more, numbered after their others *)
    (forall u i y, entry_at w' self u i y <-> entry_at w self u i y \/
       exists c T, In (u, c) l /\ cvalue c 0 = Ok T /\ y = mkVInfo T u c /\ 0 <= i /\
         (forall j, (exists z, entry_at w self u j z) <-> 0 <= j < i)) /\
    (forall t a, bal w' t a = bal w t a - on ((t =? v_token v) && (a =? v_admin v)) total + on ((t =? v_token v) && (a =? self)) total) /\
    (forall t, supply w' t = supply w t) /\ elsewhere_same KVest self w w'.
Proof.
  intros R E X total. pose proof (es_vest_create _ _ _ _ _ _ _ X) as ES. pose proof X as X0.
  pose proof (reach_vest _ _ R _ _ E) as I.
  apply vest_create_ok in X. destruct X as [v0 [v' [tot [B1 B2 B3 B4 B5 B6 B7 M Ev']]]].
  pose proof E as E0. unfold vest_at in E. rewrite E in B2. inversion B2; subst v0.
  pose proof (create_all_ok _ _ _ _ _ B7 (vv_dense _ _ _ I) (vv_nonneg _ _ _ I) B3) as [Q0 [_ [D' [_ [Q1 [Q2 Q3]]]]]].
  assert (Xe : exec e (CVestCreate self l) w = Ok (tt, w')) by exact X0.
  exists v'. split; [exact Ev'|]. split; [exact Q0|]. split; [|split; [|split; [|exact ES]]].
  - intros u i y. split.
    + intros Y. destruct (Q2 u i y (proj1 (entry_iff _ _ _ _ _ _ Ev') Y)) as [O|[c [T [Ic [_ [_ ->]]]]]]; [left; apply (entry_iff _ _ _ _ _ _ E0); exact O|].
      destruct (C52_creation_appends _ _ _ _ _ _ _ _ _ R E0 Xe Ic) as [n [T' [Pn [Bn [En [Cn Un]]]]]].
      destruct (Z.lt_trichotomy i n) as [L|[->|L]].
      * left. assert (Ri : 0 <= i < n).
        { split; [|exact L]. apply (entry_iff _ _ _ _ _ _ Ev') in Y. assert (fmem i (v_entries v' u) = true) as F by (unfold fmem; rewrite Y; reflexivity).
          apply D' in F. lia. }
        apply Bn in Ri. destruct Ri as [z Hz]. pose proof Hz as Hz0. apply (entry_iff _ _ _ _ _ _ E0) in Hz. apply Q1 in Hz.
        apply (entry_iff _ _ _ _ _ _ Ev') in Y. rewrite Hz in Y. inversion Y; subst. exact Hz0.
      * right. exists c, T'. apply (entry_iff _ _ _ _ _ _ Ev') in En. apply (entry_iff _ _ _ _ _ _ Ev') in Y. rewrite En in Y. inversion Y; subst.
        split; [exact Ic|]. split; [exact Cn|]. split; [reflexivity|]. split; [exact Pn|exact Bn].
      * exfalso. exact (Un _ _ L Y).
    + intros [O|[c [T [Ic [Cv [-> [Pi Bi]]]]]]].
      * apply (entry_iff _ _ _ _ _ _ Ev'). apply Q1. apply (entry_iff _ _ _ _ _ _ E0). exact O.
      * destruct (C52_creation_appends _ _ _ _ _ _ _ _ _ R E0 Xe Ic) as [n [T' [Pn [Bn [En [Cn _]]]]]].
        rewrite Cv in Cn. inversion Cn; subst T'. assert (i = n) as ->; [|exact En].
        destruct (Z.lt_trichotomy i n) as [L|[->|L]]; [|reflexivity|].
        -- assert (0 <= i < n) as Q by lia. apply Bn in Q. apply Bi in Q. lia.
        -- assert (0 <= n < i) as Q by lia. apply Bi in Q. apply Bn in Q. lia.
  - destruct (C53_admin_creates_and_pays _ _ _ _ _ _ _ R E0 Xe) as [_ [_ Q]]. exact Q.
  - intros t. rewrite (mv_sup _ _ _ _ _ _ M). reflexivity.
Qed.
Print Assumptions C155_creation_effect.

Theorem C155_mint_effect H w e self v u amt w' : reachable H w -> vest_at w self v ->
  vest_mint e None self u amt w = Ok (tt, w') ->
  exists cap, v_minter v = Some (u, cap) /\
    vest_at w' self (mkVest (v_admin v) (v_token v) (v_maxc v) (Some (u, cap - amt)) (v_ent v)) /\
    (forall t a, bal w' t a = bal w t a + on ((t =? v_token v) && (a =? self)) amt) /\
    (forall t, supply w' t = supply w t + on (t =? v_token v) amt) /\ elsewhere_same KVest self w w'.
Proof.
  intros R E X. pose proof (es_vest_mint _ _ _ _ _ _ _ _ X) as ES. apply vest_mint_ok in X.
  destruct X as [v0 [[m cap] [B2 [_ [B3 [B4 [_ [B5 [w1 [M [Et _]]]]]]]]]]]. unfold vest_at in *. rewrite E in B2. inversion B2; subst v0.
  simpl in B4. subst m. exists cap. split; [exact B3|]. split; [exact B5|]. split; [|split; [|exact ES]].
  - intros t a. rewrite (bal_wtok _ _ _ _ Et). apply (mt_bal _ _ _ _ _ M).
  - intros t. rewrite (supply_wtok _ _ _ Et). apply (mt_sup _ _ _ _ _ M).
Qed.
Print Assumptions C155_mint_effect.

(** ** C156: pool creation through the factory *)
(** the factory's record with the new pool entered *)
Definition registered (f f' : Fact) (a b p : Addr) : Prop :=
  f' = mkFact (f_admin f) (f_hop f) (f_lphash f) (f_stakehash f) (f_tokhash f) (f_stabhash f) (f_white f) (f_lpdec f)
         (f_lps f ++ [p]) (f_pairs f') /\
  forall x y, (match fget x (f_pairs f') with Some m => fget y m | None => None end) =
    if (x =? a) && (y =? b) then Some p else match fget x (f_pairs f) with Some m => fget y m | None => None end.

Lemma reg_registered f a b p : registered f (set_f_reg f (f_lps f ++ [p]) (pair_set f a b p)) a b p.
Proof.
  split; [reflexivity|]. intros x y. pose proof (pair_get_new f a b p x y) as Q. unfold pair_get, reg_new in Q.
  assert (D : forall m : fmap (fmap Addr), fget y (fgetd fempty x m) = match fget x m with Some m0 => fget y m0 | None => None end).
  { intros m. unfold fgetd. destruct (fget x m); reflexivity. }
  rewrite !D in Q. exact Q.
Qed.
Lemma deploy_reach H w p k : reachable H w -> 0 <= p -> fget p (w_code w) = None -> k <> KTok ->
  reachable H (set_code w (fset p k (w_code w))).
Proof.
  intros R P N Nk. eapply (reach_tx H w (mkEnv [] H) (CDeploy p k)); [exact R|reflexivity|].
  apply (proj1 (C147_deployments w (mkEnv [] H) _)). split; [exact Nk|]. split; [split; auto|reflexivity].
Qed.

Theorem C156_xyk_creation_effect H w e self f u i amp ds mf p w' : reachable H w -> fact_at w self f ->
  fact_create e None self u i Xyk amp ds mf w = Ok (p, w') ->
  exists f', p = e_hash e self (SPair (i_ta i) (i_tb i)) /\ registered f f' (i_ta i) (i_tb i) p /\
  let w1 := set_code w (fset p KPool (w_code w)) in
  w' = set_fact (set_pool (pool_children e p i self (f_lpdec f) w1)
         (fset p (mkPool (i_ta i) (i_tb i) (e_hash e p (SPair (i_ta i) (i_tb i))) (e_hash e p SEmpty) (i_fee i) (i_feerec i)
            (i_maxslip i) (i_maxspread i) (i_maxref i) ds (i_admin i) 0 0 0) (w_pool w)))
         (fset self f' (w_fact w)).
Proof.
  intros R E X. apply fact_create_ok in X.
  destruct X as [f0 [w1 [w2 [Cf [Ef [Au [Wh [Lt [P1 [P2 [Ep [Pp [Np [E1 [Hm E2]]]]]]]]]]]]]]].
  unfold fact_at in E. rewrite E in Ef. inversion Ef; subst f0.
  assert (R1 : reachable H w1). { rewrite E1. apply deploy_reach; auto. discriminate. }
  assert (Hm' : exec e (CPoolInit p i self (f_lpdec f) ds mf) w1 = Ok (tt, w2)) by exact Hm.
  apply (C147_pool_init _ _ _ R1) in Hm'. destruct Hm' as [_ [_ [_ [_ [_ [_ [_ [_ Ew]]]]]]]].
  eexists. split; [exact Ep|]. split; [apply reg_registered|]. cbv zeta. rewrite E2, Ew, E1. reflexivity.
Qed.
Print Assumptions C156_xyk_creation_effect.

Theorem C156_stable_creation_effect H w e self f u i amp ds mf p w' : reachable H w -> fact_at w self f ->
  fact_create e None self u i StableT amp ds mf w = Ok (p, w') ->
  exists f' a da db, p = e_hash e self (SPair (i_ta i) (i_tb i)) /\ registered f f' (i_ta i) (i_tb i) p /\
  amp = Some a /\ tdec w (i_ta i) = Some da /\ tdec w (i_tb i) = Some db /\
  let w1 := set_code w (fset p KStable (w_code w)) in
  w' = set_fact (set_stable (pool_children e p i self (Z.max da db) w1)
         (fset p (mkStable (i_ta i) (i_tb i) (e_hash e p (SPair (i_ta i) (i_tb i))) (e_hash e p SEmpty) (i_fee i) (i_feerec i)
            (i_maxslip i) (i_defslip i) (i_maxspread i) (i_admin i) (a * 100) (w_now w) (a * 100) (w_now w)
            (Z.max da db) da db 0 0 0) (w_stable w)))
         (fset self f' (w_fact w)).
Proof.
  intros R E X. apply fact_create_ok in X.
  destruct X as [f0 [w1 [w2 [Cf [Ef [Au [Wh [Lt [P1 [P2 [Ep [Pp [Np [E1 [[a [Ea Hm]] E2]]]]]]]]]]]]]]].
  unfold fact_at in E. rewrite E in Ef. inversion Ef; subst f0.
  assert (R1 : reachable H w1). { rewrite E1. apply deploy_reach; auto. discriminate. }
  assert (Hm' : exec e (CStableInit p i self a mf) w1 = Ok (tt, w2)) by exact Hm.
  apply (C147_stable_init _ _ _ R1) in Hm'. destruct Hm' as [_ [_ [_ [_ [_ [_ [_ [da [db [D1 [D2 [_ Ew]]]]]]]]]]]].
  exists (set_f_reg f (f_lps f ++ [p]) (pair_set f (i_ta i) (i_tb i) p)), a, da, db.
  split; [exact Ep|]. split; [apply reg_registered|]. split; [exact Ea|].
  rewrite E1 in D1, D2. split; [exact D1|]. split; [exact D2|]. cbv zeta. rewrite E2, Ew, E1. reflexivity.
Qed.
Print Assumptions C156_stable_creation_effect.
