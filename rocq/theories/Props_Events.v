(** C161-C167: what the published events say about what happened.  [lexec] and [lrun]
    (Events.v) are the transactions and histories with the log of everything that the
    contracts publish; each entry names the publishing contract. *)
From Coq Require Import ZArith List Bool String Lia.
From Coq Require Import ZifyBool.
From Verif Require Import Base FMap Decimal DecimalProofs Curve World Token TokenProofs Frame Stake Pool PoolProofs
  Stable StableProofs Rewards Vest Factory Router System SysFrame SysInv SysPool SysStable SysSupply
  SysVest SysStake SysRewards SysFact Script Runs Props_Token Props_Pool Props_Stable Props_Vest Props_Stake Props_Rewards Props_Live
  Props_LiveTok Props_LiveStable Props_LiveStake Props_Factory Props_LiveFact Props_LiveVest Props_LiveMisc Props_Router Props_Calls Props_Effects
  Props_Effects2 Events EventsErase EventsLog EventsTok EventsExact EventsExact2 EventsReplay EventsBooks.
Import ListNotations.
Open Scope string_scope.
Open Scope list_scope.
Open Scope Z_scope.

(** ** C161: publishing changes nothing, and the token events are the token books *)
Theorem C161_recording_changes_nothing H l w : run H w_empty l w <-> exists L, lrun H w_empty l w L.
Proof. split; [apply run_lrun | intros [L X]; eapply lrun_run; eauto]. Qed.
Print Assumptions C161_recording_changes_nothing.
Theorem C161_log_is_determined H l w1 L1 w2 L2 :
  lrun H w_empty l w1 L1 -> lrun H w_empty l w2 L2 -> w1 = w2 /\ L1 = L2.
Proof. intros A B. eapply lrun_fun; eauto. Qed.
Print Assumptions C161_log_is_determined.

(** what somebody holds and what exists of a token is the sum of its mint, transfer and
    burn events *)
Theorem C161_token_books_are_the_events H l w L : lrun H w_empty l w L -> forall t,
  (forall x, bal w t x = total (fun c v => if c =? t then
      match v with
      | TMint _ to amt => on (x =? to) amt
      | TTransfer from to amt => on (x =? to) amt - on (x =? from) amt
      | TBurn from amt => - on (x =? from) amt
      | _ => 0
      end else 0) L) /\
  supply w t = total (fun c v => if c =? t then match v with TMint _ _ amt => amt | TBurn _ amt => - amt | _ => 0 end else 0) L.
Proof.
  intros X t. assert (Q : Qtok w_empty w L).
  { apply (lrun_rel Qtok H Qtok_rel lexec_Qtok) with l; auto.
    intros w0 n s TCw. split; [exact TCw|]. split; intros; simpl; rewrite Z.add_0_r; reflexivity. }
  destruct Q as [_ [B S]]; [intros c Hc; exfalso; apply Hc; reflexivity|].
  split; [intros x; rewrite B | rewrite S]; reflexivity.
Qed.
Print Assumptions C161_token_books_are_the_events.

(** ** Plumbing: an instrumented call is the call *)
Lemma erase_ok {A} (m : LST A) m0 w l a w' l' : erases m m0 -> m (w, l) = Ok (a, (w', l')) -> m0 w = Ok (a, w').
Proof.
  intros E X. specialize (E w l). destruct (m0 w) as [[b w1]|x].
  - destruct E as [l1 E]. rewrite X in E. inversion E. reflexivity.
  - rewrite X in E. discriminate.
Qed.
Lemma ldrop_ok {A} (m : LST A) w l u s : l_drop m (w, l) = Ok (u, s) -> exists a, m (w, l) = Ok (a, s).
Proof.
  unfold l_drop. intros X. apply mbind_ok in X. destruct X as [a [s1 [X K]]]. inversion K; subst. eauto.
Qed.

(** ** C162: a swap publishes exactly what it does *)
Theorem C162_swap_events H w e self p u offer amt mi ms dl mf x y buy w' L :
  reachable H w -> pool_at w self p -> side p offer x y buy ->
  lexec e (CPoolSwap self u offer amt mi ms dl mf) (w, []) = Ok (tt, (w', L)) ->
  let gross := y - x * y / (x + amt) in
  let fee := gross * p_fee p / 10000 in
  L = [(offer, TTransfer u self amt); (buy, TTransfer self u (gross - fee)); (buy, TTransfer self (p_feerec p) fee);
       (self, Pub "swap" "sender" (VZ u)); (self, Pub "swap" "sell_token" (VZ offer));
       (self, Pub "swap" "offer_amount" (VZ amt)); (self, Pub "swap" "actual received amount" (VZ amt));
       (self, Pub "swap" "buy_token" (VZ buy)); (self, Pub "swap" "return_amount" (VZ (gross - fee)));
       (self, Pub "swap" "spread_amount" (VZ (amt * y / x - gross))); (self, Pub "swap" "referral_fee_amount" (VZ 0))].
Proof.
  intros R Hp Sd X gross fee. simpl in X. apply ldrop_ok in X. destruct X as [ret X].
  pose proof (erase_ok _ _ _ _ _ _ _ (e_pool_swap _ _ _ _ _ _ _ _ _ _) X) as X0.
  assert (Ns : u <> self) by (eapply C14_sender_is_not_the_pool; [exact R| |exact X0]; discriminate).
  destruct (lx_pool_swap _ _ _ _ _ _ _ _ _ _ _ _ _ _ X Ns) as [q [r [Eq [_ [Nu [Er EL]]]]]].
  unfold pool_at in Hp. rewrite Hp in Eq. inversion Eq; subst q. simpl in EL. subst L.
  pose proof (compute_swap_ok _ _ _ _ _ Nu) as SN. destruct (side_eq _ _ _ _ _ Sd) as [Ex [Ey Eb]].
  rewrite <- Ex, <- Ey in SN. subst buy.
  pose proof (sn_comm _ _ _ _ _ SN) as C. rewrite fee_floor in C. pose proof (sn_sum _ _ _ _ _ SN) as S.
  unfold gross_out in *. fold gross in C, S. fold fee in C.
  assert (A1 : cs_ret r = gross - fee) by lia. assert (A2 : cs_spread r = amt * y / x - gross) by (rewrite (sn_spread _ _ _ _ _ SN); reflexivity).
  rewrite A1, A2, C, (sn_ref _ _ _ _ _ SN). reflexivity.
Qed.
Print Assumptions C162_swap_events.

Theorem C162_stable_swap_events H w e self u offer amt mi ms dl mf w' L :
  reachable H w ->
  lexec e (CStableSwap self u offer amt mi ms dl mf) (w, []) = Ok (tt, (w', L)) ->
  exists p p' x y buy ret fee, stable_at w self p /\ stable_at w' self p' /\
    lside p offer x y buy /\ lside p' offer (x + amt) (y - (ret + fee)) buy /\ fee = (ret + fee) * l_fee p / 10000 /\
  L = [(offer, TTransfer u self amt); (buy, TTransfer self u ret); (buy, TTransfer self (l_feerec p) fee);
       (self, Pub "swap" "sender" (VZ u)); (self, Pub "swap" "sell_token" (VZ offer));
       (self, Pub "swap" "offer_amount" (VZ amt));
       (self, Pub "swap" "buy_token" (VZ buy)); (self, Pub "swap" "return_amount" (VZ ret));
       (self, Pub "swap" "spread_amount" (VZ (Z.max 0 (amt - (ret + fee)))))].
Proof.
  intros R X. simpl in X. apply ldrop_ok in X. destruct X as [ret X].
  pose proof (erase_ok _ _ _ _ _ _ _ (e_stable_swap _ _ _ _ _ _ _ _ _ _) X) as X0.
  destruct (lswap_facts H w e None self u offer amt mi ms dl mf ret w' R ltac:(discriminate) X0) as [p [p' [x [y [g [f [buy F]]]]]]].
  destruct (lx_stable_swap _ _ _ _ _ _ _ _ _ _ _ _ _ _ X) as [p0 [us [ub [ux [am [sp [cm [Ep [_ [U1 [U2 [U3 [Am [CS EL]]]]]]]]]]]]]].
  pose proof (lf_before F) as Hp. unfold stable_at in Hp. rewrite Hp in Ep. inversion Ep; subst p0. simpl in EL.
  destruct (lside_eq _ _ _ _ _ (lf_side F)) as [Ex [Ey Eb]].
  apply i2u_ok in U1. apply i2u_ok in U2. apply i2u_ok in U3. destruct U1 as [-> _], U2 as [-> _], U3 as [-> _].
  rewrite (amp_reached _ _ _ _ R Hp) in Am. inversion Am; subst am. rewrite <- Ex, <- Ey in CS.
  destruct (lf_calc F) as [sp0 CS0]. rewrite CS in CS0. inversion CS0; subst sp0 cm.
  destruct (stable_compute_swap_ok _ _ _ _ _ _ _ _ _ _ _ CS) as [ny SN].
  pose proof (sm_sum _ _ _ _ _ _ _ _ _ _ _ _ SN) as Sm. pose proof (sm_spread _ _ _ _ _ _ _ _ _ _ _ _ SN) as Sp.
  pose proof (lf_gross F) as Gr.
  exists p, p', x, y, buy, ret, f. split; [exact Hp|]. split; [exact (lf_after F)|]. split; [exact (lf_side F)|].
  split; [replace (ret + f) with g by lia; exact (lf_side' F)|]. split; [replace (ret + f) with g by lia; exact (lf_fee F)|].
  rewrite EL, Sp, Sm, <- Eb. reflexivity.
Qed.
Print Assumptions C162_stable_swap_events.

(** ** C163: deposits and withdrawals publish exactly what they do *)
Lemma Qtok_exec e k w w' L : reachable (e_hash e) w -> lexec e k (w, []) = Ok (tt, (w', L)) ->
  forall t x, bal w' t x = bal w t x + total (says t x) L.
Proof.
  intros R X. destruct (lg_exec Qtok e k w w' L (lexec_Qtok e k) X) as [_ [B _]]; [|exact B].
  intros t Ht. pose proof (reach_good _ _ R) as G. intros N. apply Ht.
  destruct (fget t (w_tok w)) eqn:E; auto. apply (gd_ctok _ G) in E. congruence.
Qed.

Theorem C163_withdrawal_events H w e self p u s m1 m2 dl w' L :
  reachable H w -> pool_at w self p -> lexec e (CPoolWithdraw self u s m1 m2 dl) (w, []) = Ok (tt, (w', L)) ->
  let ratio := s * 10^18 / p_total p in
  let a := p_ra p * ratio / 10^18 in
  let b := p_rb p * ratio / 10^18 in
  L = [(p_share p, TTransfer u self s); (p_share p, TBurn self s); (p_ta p, TTransfer self u a); (p_tb p, TTransfer self u b);
       (self, Pub "withdraw_liquidity" "sender" (VZ u)); (self, Pub "withdraw_liquidity" "shares_amount" (VZ s));
       (self, Pub "withdraw_liquidity" "return_amount_a" (VZ a)); (self, Pub "withdraw_liquidity" "return_amount_b" (VZ b))].
Proof.
  intros R Hp X ratio a b. simpl in X. apply ldrop_ok in X. destruct X as [[a0 b0] X].
  pose proof (erase_ok _ _ _ _ _ _ _ (e_pool_withdraw _ _ _ _ _ _ _ _) X) as X0.
  destruct (C153_withdrawal_effect _ _ _ _ _ _ _ _ _ _ _ _ _ R Hp X0) as [Ea [Eb _]].
  destruct (lx_pool_withdraw _ _ _ _ _ _ _ _ _ _ _ _ X) as [q [q1 [w1 [Eq [Tr [Eq1 EL]]]]]].
  unfold pool_at in Hp. rewrite Hp in Eq. inversion Eq; subst q.
  apply moved_rest in Tr. rewrite Tr in Eq1. simpl in Eq1. rewrite Hp in Eq1. inversion Eq1; subst q1.
  simpl in EL. rewrite EL, Ea, Eb. reflexivity.
Qed.
Print Assumptions C163_withdrawal_events.

Theorem C163_stable_withdrawal_events H w e self p u s m1 m2 dl w' L :
  reachable H w -> stable_at w self p -> lexec e (CStableWithdraw self u s m1 m2 dl) (w, []) = Ok (tt, (w', L)) ->
  let ratio := s * 10^18 / l_total p in
  let a := l_ra p * ratio / 10^18 in
  let b := l_rb p * ratio / 10^18 in
  L = [(l_share p, TTransfer u self s); (l_share p, TBurn self s); (l_ta p, TTransfer self u a); (l_tb p, TTransfer self u b);
       (self, Pub "withdraw_liquidity" "sender" (VZ u)); (self, Pub "withdraw_liquidity" "shares_amount" (VZ s));
       (self, Pub "withdraw_liquidity" "return_amount_a" (VZ a)); (self, Pub "withdraw_liquidity" "return_amount_b" (VZ b))].
Proof.
  intros R Hp X ratio a b. simpl in X. apply ldrop_ok in X. destruct X as [[a0 b0] X].
  pose proof (erase_ok _ _ _ _ _ _ _ (e_stable_withdraw _ _ _ _ _ _ _ _) X) as X0.
  destruct (C153_stable_withdrawal_effect _ _ _ _ _ _ _ _ _ _ _ _ _ R Hp X0) as [Ea [Eb _]].
  destruct (lx_stable_withdraw _ _ _ _ _ _ _ _ _ _ _ _ X) as [q [q1 [w1 [Eq [Tr [Eq1 EL]]]]]].
  unfold stable_at in Hp. rewrite Hp in Eq. inversion Eq; subst q.
  apply moved_rest in Tr. rewrite Tr in Eq1. simpl in Eq1. rewrite Hp in Eq1. inversion Eq1; subst q1.
  simpl in EL. rewrite EL, Ea, Eb. reflexivity.
Qed.
Print Assumptions C163_stable_withdrawal_events.

Theorem C163_deposit_events H w e self p u da mina db minb custom dl w' L :
  reachable H w -> pool_at w self p -> e_hash e = H ->
  lexec e (CPoolProvide self u da mina db minb custom dl) (w, []) = Ok (tt, (w', L)) ->
  exists xa xb a b n, da = Some xa /\ db = Some xb /\
  (p_total p = 0 -> a = xa /\ b = xb /\ n = Z.sqrt (xa * xb) - 1000) /\
  (p_total p <> 0 -> a = Z.min xa (xb * p_ra p / p_rb p) /\ b = Z.min xb (xa * p_rb p / p_ra p) /\
     n = Z.min ((bal w (p_ta p) self + a) * p_total p / p_ra p) ((bal w (p_tb p) self + b) * p_total p / p_rb p) - p_total p) /\
  L = [(p_ta p, TTransfer u self a); (p_tb p, TTransfer u self b)] ++
      (if p_total p =? 0 then [(p_share p, TMint self self 1000)] else []) ++
      [(p_share p, TMint self u n);
       (self, Pub "provide_liquidity" "sender" (VZ u)); (self, Pub "provide_liquidity" "token_a" (VZ (p_ta p)));
       (self, Pub "provide_liquidity" "token_a-amount" (VZ a)); (self, Pub "provide_liquidity" "token_b" (VZ (p_tb p)));
       (self, Pub "provide_liquidity" "token_b-amount" (VZ b))].
Proof.
  intros R Hp Eh X. subst H. pose proof (Qtok_exec _ _ _ _ _ R X) as B. simpl in X.
  pose proof (erase_ok _ _ _ _ _ _ _ (e_pool_provide _ _ _ _ _ _ _ _ _ _) X) as X0.
  pose proof (reach_pool _ _ R _ _ Hp) as I. pose proof (reach_good _ _ R) as G. pose proof (gd_cpool _ G _ _ Hp) as Hc.
  assert (Ns : u <> self).
  { pose proof X0 as X1. apply pool_provide_ok in X1. destruct X1 as [_ [Au _]].
    eapply (sender_not_self _ w e None self); [exact R|exact Hc|discriminate|exact Au]. }
  destruct (C153_deposit_effect _ _ _ _ _ _ _ _ _ _ _ _ _ R Hp X0) as [xa [xb [a [b [n [lk [Da [Db [F1 [F2 [Hp' [Bl [Su _]]]]]]]]]]]]].
  pose proof (pi_ord _ _ _ I) as Od. pose proof (pi_sa _ _ _ I) as Sa. pose proof (pi_sb _ _ _ I) as Sb.
  destruct (lx_pool_provide _ _ _ _ _ _ _ _ _ _ _ _ _ p X Ns Hp (pi_adm _ _ _ I) ltac:(lia)) as [a1 [b1 [n1 EL]]]. simpl snd in EL.
  assert (Em : ((0 <? p_ra p) && (0 <? p_rb p) = true /\ p_total p <> 0) \/ ((0 <? p_ra p) && (0 <? p_rb p) = false /\ p_total p = 0)).
  { destruct (deposit_facts _ _ _ _ _ _ _ _ _ _ _ _ _ _ R (fun Q : @None Addr = Some self => ltac:(discriminate Q)) Hp X0) as [p' [xa1 [xb1 [a2 [b2 [m1 [l1 [_ F]]]]]]]].
    destruct (Z.eq_dec (p_total p) 0) as [Z0|Z0].
    - right. destruct (pi_zero _ _ _ I Z0) as [-> ->]. auto.
    - left. destruct (df_later F Z0) as [_ [P1 [P2 _]]]. split; [lia|exact Z0]. }
  exists xa, xb, a, b, (n - p_total p - lk). split; [exact Da|]. split; [exact Db|].
  split; [intros Z0; destruct (F1 Z0) as [-> [-> [-> ->]]]; repeat split; lia|].
  split; [intros Z0; destruct (F2 Z0) as [-> [-> [-> ->]]]; repeat split; lia|].
  assert (Ts : forall t x, total (says t x) L = on ((t =? p_ta p) && (x =? self)) a1 - on ((t =? p_ta p) && (x =? u)) a1
     + on ((t =? p_tb p) && (x =? self)) b1 - on ((t =? p_tb p) && (x =? u)) b1
     + on ((t =? p_share p) && (x =? self)) (if p_total p =? 0 then 1000 else 0) + on ((t =? p_share p) && (x =? u)) n1).
  { intros t x. rewrite EL. rewrite !total_app. unfold provide_log. cbn [total]. unfold says, ind, on.
    rewrite !(Z.eqb_sym _ t). destruct Em as [[-> Q]|[-> Q]]; destruct (Z.eqb_spec (p_total p) 0); try contradiction; cbn [total];
    unfold says, ind; rewrite ?(Z.eqb_sym _ t);
    destruct (t =? p_ta p), (t =? p_tb p), (t =? p_share p), (x =? self), (x =? u), (t =? self); cbn [andb]; lia. }
  assert (E1 : a1 = a).
  { pose proof (B (p_ta p) self) as Q. rewrite Ts, Bl in Q. unfold on in Q.
    destruct (Z.eqb_spec (p_ta p) (p_tb p)); [lia|]. destruct (Z.eqb_spec (p_ta p) (p_share p)); [congruence|].
    destruct (Z.eqb_spec self u); [congruence|]. rewrite !Z.eqb_refl in Q. cbn in Q. lia. }
  assert (E2 : b1 = b).
  { pose proof (B (p_tb p) self) as Q. rewrite Ts, Bl in Q. unfold on in Q.
    destruct (Z.eqb_spec (p_tb p) (p_ta p)); [lia|]. destruct (Z.eqb_spec (p_tb p) (p_share p)); [congruence|].
    destruct (Z.eqb_spec self u); [congruence|]. rewrite !Z.eqb_refl in Q. cbn in Q. lia. }
  assert (E3 : n1 = n - p_total p - lk).
  { pose proof (B (p_share p) u) as Q. rewrite Ts, Bl in Q. unfold on in Q.
    destruct (Z.eqb_spec (p_share p) (p_ta p)); [congruence|]. destruct (Z.eqb_spec (p_share p) (p_tb p)); [congruence|].
    destruct (Z.eqb_spec u self); [congruence|]. rewrite !Z.eqb_refl in Q. cbn in Q. lia. }
  subst a1 b1 n1. rewrite EL. destruct Em as [[-> Q]|[-> Q]]; destruct (Z.eqb_spec (p_total p) 0); try contradiction; reflexivity.
Qed.
Print Assumptions C163_deposit_events.

Theorem C163_stable_deposit_events H w e self p u da db custom dl mins w' L :
  reachable H w -> stable_at w self p -> e_hash e = H ->
  lexec e (CStableProvide self u da db custom dl mins) (w, []) = Ok (tt, (w', L)) ->
  exists n p', stable_at w' self p' /\ l_total p' = l_total p + n /\
  L = [(l_ta p, TTransfer u self da); (l_tb p, TTransfer u self db); (l_share p, TMint self u n);
       (self, Pub "provide_liquidity" "sender" (VZ u)); (self, Pub "provide_liquidity" "token_a" (VZ (l_ta p)));
       (self, Pub "provide_liquidity" "token_a-amount" (VZ da)); (self, Pub "provide_liquidity" "token_b" (VZ (l_tb p)));
       (self, Pub "provide_liquidity" "token_b-amount" (VZ db))].
Proof.
  intros R Hp Eh X. subst H. pose proof (Qtok_exec _ _ _ _ _ R X) as B. pose proof (lexec_exec _ _ _ _ _ X) as X0. simpl in X.
  pose proof (reach_stable _ _ R _ _ Hp) as I. pose proof (reach_good _ _ R) as G. pose proof (gd_cstable _ G _ _ Hp) as Hc.
  pose proof (li_ord _ _ _ I) as Od. pose proof (li_sa _ _ _ I) as Sa. pose proof (li_sb _ _ _ I) as Sb.
  destruct (C150_stable_deposit_effect _ _ _ _ _ R Hp _ _ _ _ _ _ _ X0) as [m [Al [Hp' [_ [_ [_ Bl]]]]]].
  assert (Ns : u <> self).
  { destruct Al as [Sg _]. intros ->. pose proof (gd_pos _ G _ _ Hc). rewrite signs_neg in Sg by lia. discriminate. }
  destruct (lx_stable_provide _ _ _ _ _ _ _ _ _ _ _ _ p X Ns Hp (li_adm _ _ _ I) ltac:(lia)) as [n EL]. simpl snd in EL.
  assert (E3 : n = m).
  { pose proof (B (l_share p) u) as Q. rewrite Bl, EL in Q. cbn [app total provide_log] in Q. unfold says, ind, on in Q.
    rewrite !Z.eqb_refl in Q. rewrite !(Z.eqb_sym _ (l_share p)) in Q.
    destruct (Z.eqb_spec (l_share p) (l_ta p)); [congruence|]. destruct (Z.eqb_spec (l_share p) (l_tb p)); [congruence|].
    destruct (Z.eqb_spec (l_share p) self); cbn [andb] in Q; lia. }
  subst n. eexists m, _. split; [exact Hp'|]. split; [reflexivity|]. exact EL.
Qed.
Print Assumptions C163_stable_deposit_events.

(** ** C164: staking books.  An observer of the staking contract [c] remembers the user named last, adds
    the announced bonds and subtracts the announced unbonds. *)
Theorem C164_staking_books_are_the_events H l w L c s u : lrun H w_empty l w L -> stake_at w c s ->
  let '(_, (mine, all)) := fold_left (hear_stake c u) L (0, (0, 0)) in
  staked s u = mine /\ s_total s = all.
Proof.
  intros X Hs. pose proof (lrun_keeps (hear_stake c u) (right_stake c u) H (stake_books c u)
    (fun st w0 n q B => B) l w L (0, (0, 0)) X (conj eq_refl eq_refl)) as K.
  destruct (fold_left (hear_stake c u) L (0, (0, 0))) as [cur [mine all]]. destruct K as [K1 K2]. cbn [fst snd] in K1, K2.
  unfold staked_in, total_in, stake_at in *. rewrite Hs in *. split; [|auto].
  assert (R : reachable H w) by (exists l; eapply lrun_run; eauto).
  rewrite K1. symmetry. eapply b_total_staked; [exact (reach_stake _ _ R _ _ Hs)|]. pose proof (reach_now _ _ R). lia.
Qed.
Print Assumptions C164_staking_books_are_the_events.

(** ** C165: the registry of a factory is the list of the pools that it has announced *)
Theorem C165_registry_is_the_events H l w L c f : lrun H w_empty l w L -> fact_at w c f ->
  f_lps f = flat_map (fun x => match x with
    | (a, Pub t k (VZ n)) => if (a =? c) && String.eqb t "create" && String.eqb k "liquidity_pool" then [n] else []
    | _ => [] end) L.
Proof.
  intros X Hf. pose proof (lrun_keeps (hear_fact c) (right_fact c) H (fact_books c)
    (fun st w0 n q B => B) l w L [] X eq_refl) as K.
  unfold right_fact, pools_in, fact_at in *. rewrite Hf in K. rewrite <- K.
  assert (G : forall L0 st, fold_left (hear_fact c) L0 st = st ++ flat_map (fun x => match x with
    | (a, Pub t k (VZ n)) => if (a =? c) && String.eqb t "create" && String.eqb k "liquidity_pool" then [n] else []
    | _ => [] end) L0).
  { induction L0 as [|x L0 IH]; intros st; [now rewrite app_nil_r|].
    cbn [fold_left flat_map]. rewrite IH. unfold hear_fact.
    destruct x as [a [| | | | |t k [n| |]]]; try reflexivity.
    destruct ((a =? c) && String.eqb t "create" && String.eqb k "liquidity_pool"); [now rewrite <- app_assoc|reflexivity]. }
  apply (G L []).
Qed.
Print Assumptions C165_registry_is_the_events.

(** ** C166: the books of the rewards contract.  What has been distributed is the sum of the announced
    distributions; what is still owed is that less the sum of the announced payments. *)
Theorem C166_rewards_books_are_the_events H l w L c r : lrun H w_empty l w L -> rewards_at w c r ->
  let sum (topic key : string) := total (fun a v => match v with
    | Pub t k (VZ n) => if (a =? c) && String.eqb t topic && String.eqb k key then n else 0
    | _ => 0 end) L in
  r_dist r = sum "distribute_rewards" "amount" /\
  r_wdr r = sum "distribute_rewards" "amount" - sum "withdraw_rewards" "reward_amount".
Proof.
  intros X Hr sum. pose proof (lrun_keeps (hear_rewards c) (right_rewards c) H (rewards_books c)
    (fun st w0 n q B => B) l w L (0, 0) X (conj eq_refl eq_refl)) as K.
  unfold right_rewards, dist_in, wdr_in, rewards_at in *. rewrite Hr in K. destruct K as [<- <-]. subst sum. cbv beta.
  pose (S := fun (L : Log) (topic key : string) => total (fun a v => match v with
    | Pub t k (VZ n) => if (a =? c) && String.eqb t topic && String.eqb k key then n else 0
    | _ => 0 end) L).
  assert (G : forall L0 st, fold_left (hear_rewards c) L0 st = (fst st + S L0 "distribute_rewards" "amount",
    snd st + S L0 "distribute_rewards" "amount" - S L0 "withdraw_rewards" "reward_amount")).
  { induction L0 as [|x L0 IH]; intros [d q]; [unfold S; cbn [fold_left total fst snd]; f_equal; lia|].
    cbn [fold_left]. rewrite IH. unfold S. cbn [total]. destruct x as [a v]. cbn [total]. unfold hear_rewards.
    destruct v as [| | | | |t k [n| |]]; cbn [fst snd]; try (f_equal; lia).
    destruct (a =? c); cbn [andb]; [|cbn [fst snd]; f_equal; lia].
    destruct (String.eqb_spec t "distribute_rewards") as [->|]; cbn [andb].
    - change (String.eqb "distribute_rewards" "withdraw_rewards") with false. cbn [andb].
      destruct (String.eqb k "amount"); cbn [andb fst snd]; f_equal; lia.
    - destruct (String.eqb t "withdraw_rewards"); cbn [andb]; [|cbn [fst snd]; f_equal; lia].
      destruct (String.eqb k "reward_amount"); cbn [fst snd]; f_equal; lia. }
  rewrite (G L (0, 0)). unfold S. cbn [fst snd]. lia.
Qed.
Print Assumptions C166_rewards_books_are_the_events.

(** ** C167: the minter of a vesting contract.  The observer notes the last announced minter and the last
    announced capacity less the mints announced since. *)
Theorem C167_minter_is_the_events H l w L c v : lrun H w_empty l w L -> fget c (w_vest w) = Some v ->
  let '(m, cap) := fold_left (hear_vest c) L (None, None) in
  (forall a, m = Some a -> exists n, v_minter v = Some (a, n)) /\
  (forall n, cap = Some n -> exists a, v_minter v = Some (a, n)).
Proof.
  intros X Hv. pose proof (lrun_keeps (hear_vest c) (right_vest c) H (vest_books c)
    (fun st w0 n q B => B) l w L (None, None) X) as K.
  unfold right_vest, minter_in in K. rewrite Hv in K.
  destruct (fold_left (hear_vest c) L (None, None)) as [m cap]. apply K. simpl. split; intros; discriminate.
Qed.
Print Assumptions C167_minter_is_the_events.

(** ** C168: a route publishes what its swaps would have published as separate transactions, and nothing else *)
Inductive LegLogs (e : Env) (f u : Addr) (ms dl mf : option Z) : list SwapOp -> Z -> World -> World -> Log -> Prop :=
| ll_nil x w : LegLogs e f u ms dl mf [] x w w []
| ll_cons o ops p x y w w1 w2 L1 L2 : fact_pool_by_pair f (o_offer o) (o_ask o) w = Ok (p, w) ->
    direct_swap e p u o x ms dl mf w y w1 ->
    (lexec e (CPoolSwap p u (o_offer o) x (o_min o) ms dl mf) (w, []) = Ok (tt, (w1, L1)) \/
     lexec e (CStableSwap p u (o_offer o) x (o_min o) ms dl mf) (w, []) = Ok (tt, (w1, L1))) ->
    LegLogs e f u ms dl mf ops y w1 w2 L2 ->
    LegLogs e f u ms dl mf (o :: ops) x w w2 (L1 ++ L2).

(** what a computation publishes does not depend on what was published before *)
Definition fresh_log {A} (m : LST A) : Prop := forall w l a w' l', m (w, l) = Ok (a, (w', l')) ->
  exists d, l' = l ++ d /\ forall l0, m (w, l0) = Ok (a, (w', l0 ++ d)).
Lemma fl_bind {A B} (m : LST A) (k : A -> LST B) : fresh_log m -> (forall a, fresh_log (k a)) -> fresh_log (mbind m k).
Proof.
  intros E F w l b w' l' X. apply mbind_ok in X. destruct X as [a [[w1 l1] [M K]]].
  destruct (E _ _ _ _ _ M) as [d1 [-> Q1]]. destruct (F _ _ _ _ _ _ K) as [d2 [-> Q2]].
  exists (d1 ++ d2). split; [now rewrite app_assoc|]. intros l0. unfold mbind. rewrite Q1, Q2, app_assoc. reflexivity.
Qed.
Lemma fl_nil {A} (m : LST A) (g : World -> res (A * World)) :
  (forall w l, m (w, l) = match g w with Ok (a, w') => Ok (a, (w', l)) | Err x => Err x end) -> fresh_log m.
Proof.
  intros E w l a w' l' X. rewrite E in X. destruct (g w) as [[b w1]|x] eqn:G; inversion X; subst.
  exists []. split; [now rewrite app_nil_r|]. intros l0. rewrite E, G, app_nil_r. reflexivity.
Qed.
Lemma fl_lf {A} (m : ST World A) : fresh_log (lf m).
Proof. apply (fl_nil _ m). reflexivity. Qed.
Lemma fl_ret {A} (a : A) : fresh_log (mret a).
Proof. apply (fl_nil _ (fun w => Ok (a, w))). reflexivity. Qed.
Lemma fl_fail {A} x : fresh_log (@mfail LW A x).
Proof. apply (fl_nil _ (fun w => Err x)). reflexivity. Qed.
Lemma fl_mlift {A} (r : res A) : fresh_log (mlift r).
Proof. apply (fl_nil _ (fun w => match r with Ok a => Ok (a, w) | Err x => Err x end)). intros. unfold mlift. destruct r; reflexivity. Qed.
Lemma fl_mguard b x : fresh_log (mguard b x).
Proof. apply (fl_nil _ (fun w => if b then Ok (tt, w) else Err x)). intros. unfold mguard. destruct b; reflexivity. Qed.
Lemma fl_emit c v : fresh_log (emit c v).
Proof. intros w l a w' l' X. inversion X; subst. exists [(c, v)]. split; reflexivity. Qed.
Ltac fl := repeat first
  [ apply fl_lf | apply fl_emit | apply fl_bind; [|intro] | apply fl_ret | apply fl_fail | apply fl_mlift | apply fl_mguard
  | match goal with
    | |- fresh_log (let '(_, _) := ?p in _) => destruct p
    | |- fresh_log (if ?b then _ else _) => destruct b
    | |- fresh_log (match ?o with _ => _ end) => destruct o
    end
  | progress cbv beta zeta ].
Lemma fl_pool_swap e c p u o x mi ms dl mf : fresh_log (l_pool_swap e c p u o x mi ms dl mf).
Proof. unfold l_pool_swap, l_do_swap, l_transfer, pub. fl. Qed.
Lemma fl_stable_swap e c p u o x mi ms dl mf : fresh_log (l_stable_swap e c p u o x mi ms dl mf).
Proof. unfold l_stable_swap, l_stable_do_swap, l_transfer, pub. fl. Qed.

Lemma l_swap_caller e h p u o x mi ms dl mf s : signs e u = true ->
  l_pool_swap e (Some h) p u o x mi ms dl mf s = l_pool_swap e None p u o x mi ms dl mf s /\
  l_stable_swap e (Some h) p u o x mi ms dl mf s = l_stable_swap e None p u o x mi ms dl mf s.
Proof.
  intros S0. unfold l_pool_swap, l_stable_swap, require_auth, authed. rewrite S0. simpl orb. split; reflexivity.
Qed.

Lemma hop_logs e h f u ms dl mf ops : signs e u = true -> forall x w l r w' l',
  l_hop_swaps e h f u ops x ms dl mf (w, l) = Ok (r, (w', l')) ->
  exists d, l' = l ++ d /\ LegLogs e f u ms dl mf ops x w w' d.
Proof.
  intros S0. induction ops as [|o ops IH]; intros x w l r w' l' X.
  - inversion X; subst. exists []. split; [now rewrite app_nil_r|constructor].
  - cbn [l_hop_swaps] in X. apply mbind_ok in X. destruct X as [p [[w1 l1] [Q X]]].
    apply lf_ok in Q. destruct Q as [w2 [Q E]]. pose proof (pure_fact_pool_by_pair _ _ _ _ _ _ Q). subst w2. inversion E; subst w1 l1; clear E.
    apply mbind_ok in X. destruct X as [y [[w1 l1] [D X]]]. apply IH in X. destruct X as [d2 [-> L2]].
    unfold l_any_swap in D. apply mbind_ok in D. destruct D as [w0 [[w2 l2] [E D]]]. inversion E; subst w0 w2 l2; clear E.
    destruct (l_swap_caller e h p u (o_offer o) x (o_min o) ms dl mf (w, l) S0) as [E1 E2].
    destruct (fget p (w_code w)) as [[]|]; try discriminate; [rewrite E1 in D|rewrite E2 in D].
    + pose proof (erase_ok _ _ _ _ _ _ _ (e_pool_swap _ _ _ _ _ _ _ _ _ _) D) as D0.
      destruct (fl_pool_swap _ _ _ _ _ _ _ _ _ _ _ _ _ _ _ D) as [d1 [-> F]]. exists (d1 ++ d2). split; [now rewrite app_assoc|].
      apply ll_cons with (p := p) (y := y) (w1 := w1); [exact Q|left; exact D0| |exact L2].
      left. simpl. unfold l_drop, mbind. rewrite F. reflexivity.
    + pose proof (erase_ok _ _ _ _ _ _ _ (e_stable_swap _ _ _ _ _ _ _ _ _ _) D) as D0.
      destruct (fl_stable_swap _ _ _ _ _ _ _ _ _ _ _ _ _ _ _ D) as [d1 [-> F]]. exists (d1 ++ d2). split; [now rewrite app_assoc|].
      apply ll_cons with (p := p) (y := y) (w1 := w1); [exact Q|right; exact D0| |exact L2].
      right. simpl. unfold l_drop, mbind. rewrite F. reflexivity.
Qed.

Theorem C168_route_events w e h d u ops ms amt dl mf w' L : fget h (w_hop w) = Some d ->
  lexec e (CHopSwap h u ops ms amt dl mf) (w, []) = Ok (tt, (w', L)) ->
  LegLogs e (h_fact d) u ms dl mf ops amt w w' L.
Proof.
  intros E X. simpl in X. apply ldrop_ok in X. destruct X as [r X]. unfold l_hop_swap in X.
  apply mbind_ok in X. destruct X as [z1 [[w1 l1] [Q X]]]. apply lf_ok in Q. destruct Q as [w2 [Q K]]. apply enter_ok in Q. destruct Q as [_ ->]. inversion K; subst w1 l1; clear K.
  apply mbind_ok in X. destruct X as [z2 [s [Q X]]]. apply mguard_ok in Q. destruct Q as [_ Q]. inversion Q; subst z2 s; clear Q.
  apply mbind_ok in X. destruct X as [z2 [s [Q X]]]. apply mguard_ok in Q. destruct Q as [_ Q]. inversion Q; subst z2 s; clear Q.
  apply mbind_ok in X. destruct X as [z3 [[w1 l1] [Q X]]]. apply lf_ok in Q. destruct Q as [w2 [Q K]]. apply require_auth_ok in Q. destruct Q as [A ->]. inversion K; subst w1 l1; clear K.
  apply mbind_ok in X. destruct X as [d0 [[w1 l1] [Q X]]]. apply lf_ok in Q. destruct Q as [w2 [Q K]]. apply get_hop_ok in Q. destruct Q as [Q ->]. inversion K; subst w1 l1; clear K.
  rewrite E in Q. inversion Q; subst d0. rewrite authed_none in A.
  apply hop_logs in X; [|exact A]. destruct X as [dd [-> LL]]. exact LL.
Qed.
Print Assumptions C168_route_events.
