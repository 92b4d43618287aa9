(** Properties of the stake contract: C35-C41, C44, C88-C90. *)
From Coq Require Import ZArith List Bool Lia.
From Coq Require Import ZifyBool.
From Verif Require Import Base FMap Decimal DecimalProofs World Token TokenProofs Frame Runs Stake Pool PoolProofs
  Stable StableProofs Rewards Vest Factory Router System SysFrame SysInv SysPool SysSupply SysVest SysStake
  Script Props_Token Props_Pool Props_Vest.
Import ListNotations.
Open Scope Z_scope.

(** The record of the stake contract at [c]. *)
Definition stake_at (w : World) (c : Addr) (s : Stake) : Prop := fget c (w_stake w) = Some s.
(** the stakes recorded for a user, and their sum *)
Definition stakes_of (s : Stake) (u : Addr) : list StakeE := match fget u (s_users s) with Some b => b_stakes b | None => [] end.
Definition staked (s : Stake) (u : Addr) : Z := sum_of k_amt (stakes_of s u).
Definition last_claim (s : Stake) (u : Addr) : Z := match fget u (s_users s) with Some b => b_last b | None => 0 end.

Lemma ksum_of f l : ksum f l = sum_of f l.
Proof. induction l; simpl; congruence. Qed.
Lemma stakes_user s u : b_stakes (s_user s u) = stakes_of s u.
Proof. unfold s_user, stakes_of, fgetd. destruct (fget u (s_users s)); auto. Qed.
Lemma last_user s u : b_last (s_user s u) = last_claim s u.
Proof. unfold s_user, last_claim, fgetd. destruct (fget u (s_users s)); auto. Qed.
Lemma reach_now H w : reachable H w -> 0 <= w_now w <= U64_MAX.
Proof. intros R. apply (wg_now _ (reach_wgood _ _ R)). Qed.

(** sums over a map by sums over users *)
Lemma fsum_cover_by {V} (f : V -> Z) (m : fmap V) l : fsorted m -> NoDup l ->
  (forall a v, fget a m = Some v -> f v <> 0 -> In a l) ->
  fsum f m = zsum (fun a => match fget a m with Some v => f v | None => 0 end) l.
Proof.
  intros S N C.
  assert (E : fsum f m = fsum (fun x => x) (map (fun p => (fst p, f (snd p))) m)).
  { clear. induction m as [|[k v] m IH]; simpl; auto. rewrite IH. auto. }
  assert (G : forall a, fgetd 0 a (map (fun p => (fst p, f (snd p))) m) = match fget a m with Some v => f v | None => 0 end).
  { intros a. unfold fgetd. rewrite fget_map. destruct (fget a m); auto. }
  rewrite E. rewrite (fsum_cover _ l None); auto.
  - apply zsum_ext. intros a _. apply G.
  - clear - S. unfold fsorted in S. revert S. generalize (@None Z). induction m as [|[k v] m IH]; simpl; intros lo S; auto.
    destruct S; split; auto.
  - intros a Na. rewrite G in Na. destruct (fget a m) eqn:F; [|congruence]. eapply C; eauto.
Qed.
(** a partial sum *)
Lemma fsum_ge_some {V} (f : V -> Z) (m : fmap V) l : fsorted m -> NoDup l -> (forall k v, In (k, v) m -> 0 <= f v) ->
  zsum (fun a => match fget a m with Some v => f v | None => 0 end) l <= fsum f m.
Proof.
  intros S N P.
  set (l2 := l ++ filter (fun k => negb (zmem k l)) (fkeys m)).
  assert (N2 : NoDup l2).
  { unfold l2. assert (NF : NoDup (filter (fun k => negb (zmem k l)) (fkeys m))) by (apply NoDup_filter; eapply sorted_nodup; eauto).
    assert (D : forall x, In x l -> ~ In x (filter (fun k => negb (zmem k l)) (fkeys m))).
    { intros x I K. apply filter_In in K. destruct K as [_ K]. apply zmem_in in I. rewrite I in K. discriminate. }
    revert D NF. generalize (filter (fun k => negb (zmem k l)) (fkeys m)). clear - N. induction N as [|x l N1 N2 IH]; simpl; intros q D NF; auto.
    constructor; [|apply IH; auto]. rewrite in_app_iff. intros [K|K]; [tauto|]. eapply D; eauto. }
  rewrite (fsum_cover_by f m l2); auto.
  - unfold l2. rewrite zsum_app. assert (0 <= zsum (fun a => match fget a m with Some v => f v | None => 0 end) (filter (fun k => negb (zmem k l)) (fkeys m))); [|lia].
    apply zsum_nonneg. intros a _. destruct (fget a m) eqn:E; [|lia]. apply fget_in in E. eauto.
  - intros a v E _. unfold l2. apply in_or_app. destruct (zmem a l) eqn:Z0; [left; apply zmem_in; auto|right].
    apply filter_In. rewrite Z0. split; auto. apply keys_mem. unfold fmem. rewrite E. auto.
Qed.

(** ** C35 *)
Theorem C35_total_is_sum_of_stakes H w c s l : reachable H w -> stake_at w c s -> NoDup l ->
  (forall u, staked s u <> 0 -> In u l) ->
  s_total s = sum_of (staked s) l /\ stake_query_total c w = Ok (s_total s, w).
Proof.
  intros R E N C. pose proof (reach_stake _ _ R _ _ E) as I. split.
  - rewrite (sv_sum _ _ _ I). rewrite (fsum_cover_by b_total (s_users s) l); auto; [|apply I|].
    + assert (Q : forall l, sum_of (staked s) l = zsum (staked s) l) by (clear; induction l; simpl; congruence).
      rewrite Q. apply zsum_ext. intros u _. unfold staked, stakes_of. destruct (fget u (s_users s)) as [b|] eqn:Eb; [|reflexivity].
      apply fget_in in Eb. rewrite (su_sum _ _ (sv_user _ _ _ I _ _ Eb)). apply ksum_of.
    + intros u b Eb Nb. apply C. unfold staked, stakes_of. rewrite Eb. apply fget_in in Eb.
      rewrite <- ksum_of. rewrite (su_sum _ _ (sv_user _ _ _ I _ _ Eb)) in Nb. exact Nb.
  - unfold stake_query_total. rewrite (run_bind _ _ _ tt w) by (apply run_enter; eapply gd_cstake; [eapply reach_good|]; eauto).
    unfold get_stake, mbind, mget, mgets. unfold stake_at in E. rewrite E. reflexivity.
Qed.
Print Assumptions C35_total_is_sum_of_stakes.

Theorem C35_user_total H w c s u : reachable H w -> stake_at w c s ->
  exists b, stake_query_staked c u w = Ok (b, w) /\ b_stakes b = stakes_of s u /\ b_total b = staked s u /\
    forall k, In k (stakes_of s u) -> 0 < k_amt k /\ 0 <= k_ts k <= w_now w.
Proof.
  intros R E. pose proof (reach_stake _ _ R _ _ E) as I. exists (s_user s u).
  pose proof (s_user_ok _ _ _ u I ltac:(apply (reach_now _ _ R))) as [U1 U2 U3]. rewrite stakes_user in *.
  split; [|split; [auto|split; [rewrite U1; apply ksum_of|auto]]].
  unfold stake_query_staked. rewrite (run_bind _ _ _ tt w) by (apply run_enter; eapply gd_cstake; [eapply reach_good|]; eauto).
  unfold get_stake, mbind, mget, mgets. unfold stake_at in E. rewrite E. reflexivity.
Qed.
Print Assumptions C35_user_total.

(** ** C36 *)
(** runs in which no distribution at an already recorded time lowers the recorded total *)
Definition keeps_day_total (c : Addr) (w : World) (k : Call) : Prop :=
  match k with
  | CDistribute c' _ _ _ => c' = c -> forall s T, stake_at w c s -> fget (w_now w) (s_tsh s) = Some T -> T <= s_total s
  | _ => True
  end.
Lemma fair_run H c w l w' : run_if (keeps_day_total c) H w l w' -> run_if (fair_dist c) H w l w'.
Proof.
  apply run_if_weaken. intros w0 k. destruct k; simpl; auto. intros K E s Es T Et. eapply K; eauto.
Qed.
Lemma fair_solv H c l w s : run_if (keeps_day_total c) H w_empty l w -> stake_at w c s -> reachable H w /\ SolvInv w c s.
Proof.
  intros F E. assert (R0 : reachable H w_empty) by (exists []; constructor).
  split; [exists l; eapply run_if_run; eauto|]. apply fair_run in F.
  eapply (solv_run H c w_empty l w F R0); eauto. intros s0 E0. discriminate.
Qed.

Theorem C36_principal_backed H w c s : reachable H w -> stake_at w c s -> ~ In (s_lp s) (s_dists s) -> s_total s <= bal w (s_lp s) c.
Proof. intros R E N. apply (sv_lp _ _ _ (reach_stake _ _ R _ _ E) N). Qed.
Print Assumptions C36_principal_backed.

Lemma oblig_nonneg w c s rt : StakeInv w c s -> 0 <= oblig s rt.
Proof.
  intros I. unfold oblig. destruct (fget rt (s_rh s)) as [h|] eqn:Eh; [|lia]. apply fsum_nonneg. intros k b K.
  eapply user_due_nonneg; eauto. eapply sv_user; eauto.
Qed.
Theorem C36_principal_backed_if_day_totals_kept H l w c s : run_if (keeps_day_total c) H w_empty l w -> stake_at w c s ->
  s_total s <= bal w (s_lp s) c.
Proof.
  intros F E. destruct (fair_solv _ _ _ _ _ F E) as [R V]. specialize (V (s_lp s)). unfold principal in V. rewrite Z.eqb_refl in V.
  pose proof (oblig_nonneg _ _ _ (s_lp s) (reach_stake _ _ R _ _ E)). lia.
Qed.
Print Assumptions C36_principal_backed_if_day_totals_kept.

(** ** C37 *)
Lemma remove_stake_runs l : forall k, In k l -> exists l', remove_stake l (k_amt k) (k_ts k) = Ok l'.
Proof.
  induction l as [|x l IH]; simpl; intros k I; [destruct I|]. destruct I as [->|I]; [rewrite !Z.eqb_refl; simpl; eauto|].
  destruct (_ && _); [eauto|]. destruct (IH _ I) as [l' ->]. unfold rbind. eauto.
Qed.
Lemma unbond_runs H e w c s u k : reachable H w -> stake_at w c s -> s_total s <= bal w (s_lp s) c ->
  signs e u = true -> In k (stakes_of s u) -> bal w (s_lp s) u + k_amt k <= I128_MAX ->
  exists w', exec e (CUnbond c u (k_amt k) (k_ts k)) w = Ok (tt, w').
Proof.
  intros R E B Au K F. pose proof (reach_stake _ _ R _ _ E) as I. pose proof (reach_good _ _ R) as G.
  pose proof (proj1 (reach_now _ _ R)) as P. pose proof (gd_cstake _ G _ _ E) as Hc.
  pose proof (s_user_ok _ _ _ u I P) as [U1 U2 U3]. pose proof (user_total_le _ _ _ u I P) as UL. pose proof (sv_total _ _ _ I) as ST.
  rewrite <- stakes_user in K. pose proof (U3 _ K) as [K1 _].
  destruct (remove_stake_runs _ _ K) as [l' Hl]. destruct (remove_stake_ok _ _ _ _ Hl) as [k' [_ [_ [_ [K4 [K5 _]]]]]].
  assert (KA : k_amt k <= b_total (s_user s u)).
  { rewrite U1. unfold stakes_sum. clear - K U3. revert K U3. generalize (b_stakes (s_user s u)). induction l as [|x l IH]; simpl; intros I P; [tauto|].
    pose proof (ksum_nonneg k_amt l). destruct I as [->|I].
    - enough (0 <= ksum k_amt l) by lia. apply H. intros y Y. specialize (P y (or_intror Y)). lia.
    - specialize (IH I (fun y Y => P y (or_intror Y))). specialize (P x (or_introl eq_refl)). lia. }
  rewrite <- authed_root in Au. pose proof (authed_ne _ None _ _ _ _ G Hc ltac:(discriminate) Au) as Ns.
  simpl. unfold stake_unbond. rewrite (run_bind _ _ _ tt w) by (apply run_enter; auto).
  rewrite (run_bind _ _ _ tt w) by (apply run_auth; auto).
  rewrite (run_bind _ _ _ s w) by (unfold get_stake, mbind, mget, mgets; unfold stake_at in E; rewrite E; reflexivity).
  cbv zeta. rewrite (run_bind _ _ _ l' w) by (apply run_lift; auto).
  rewrite (run_bind _ _ _ (b_total (s_user s u) - k_amt k) w).
  2:{ apply run_lift. unfold sub_i. apply chk_ok. unfold in_i128, I128_MIN, I128_MAX in *. lia. }
  destruct (tok_transfer_runs e (Some c) (s_lp s) c u (k_amt k) w) as [w1 H1]; auto.
  { unfold authed. rewrite Z.eqb_refl. apply orb_true_r. }
  { apply (bal_is_tok w (s_lp s) c). lia. }
  { lia. }
  rewrite (run_bind _ _ _ tt w1) by exact H1.
  rewrite (run_bind _ _ _ (s_total s - k_amt k) w1).
  2:{ apply run_lift. unfold sub_i. apply chk_ok. unfold in_i128, I128_MIN, I128_MAX in *. lia. }
  eexists. reflexivity.
Qed.
Theorem C37_principal_withdrawable H l w c s e u k : run_if (keeps_day_total c) H w_empty l w \/ (run H w_empty l w /\ ~ In (s_lp s) (s_dists s)) ->
  stake_at w c s -> signs e u = true -> In k (stakes_of s u) -> bal w (s_lp s) u + k_amt k <= I128_MAX ->
  exists w', exec e (CUnbond c u (k_amt k) (k_ts k)) w = Ok (tt, w') /\ bal w' (s_lp s) u = bal w (s_lp s) u + k_amt k.
Proof.
  intros C E Au K F.
  assert (R : reachable H w) by (destruct C as [C|[C _]]; [exists l; eapply run_if_run; eauto|exists l; auto]).
  assert (B : s_total s <= bal w (s_lp s) c).
  { destruct C as [C|[C N]]; [eapply C36_principal_backed_if_day_totals_kept; eauto|eapply C36_principal_backed; eauto]. }
  destruct (unbond_runs _ _ _ _ _ _ _ R E B Au K F) as [w' X]. exists w'. split; auto.
  simpl in X. apply stake_unbond_ok in X. destruct X as [s0 [s' [l' [B1 B2 B3 B4 [w1 [M Ew]] _]]]].
  unfold stake_at in E. rewrite E in B2. inversion B2; subst s0.
  pose proof (authed_ne _ None _ _ _ _ (reach_good _ _ R) B1 ltac:(discriminate) B3) as Ns.
  rewrite Ew. change (bal (set_stake w1 _) (s_lp s) u) with (bal w1 (s_lp s) u). rewrite (mv_bal _ _ _ _ _ _ M). rewrite !Z.eqb_refl.
  destruct (Z.eqb_spec u c); [congruence|]. simpl. lia.
Qed.
Print Assumptions C37_principal_withdrawable.

(** ** Pending rewards *)
(** what the contract announces to [u] in token [rt] *)
Definition claimable (w : World) (c u rt v : Z) : Prop := exists l, stake_query_rewards c u w = Ok (l, w) /\ In (rt, v) l.

Lemma query_pending_ok s t b l : forall r, query_pending s t b l = Ok r ->
  map fst r = l /\ forall a v, In (a, v) r -> exists p, pending_rewards s t a b = Ok p /\ v = as_u128 p.
Proof.
  induction l as [|a l IH]; simpl; intros r H.
  - inversion H; subst. split; auto. intros a v [].
  - destruct (pending_rewards s t a b) as [p|] eqn:Ep; [|discriminate]. unfold rbind in H.
    destruct (query_pending s t b l) as [q|] eqn:Eq; [|discriminate]. inversion H; subst.
    destruct (IH _ eq_refl) as [I1 I2]. simpl. split; [congruence|]. intros a' v [K|K]; [inversion K; subst; eauto|auto].
Qed.
Lemma query_run H w c s u : reachable H w -> stake_at w c s ->
  stake_query_rewards c u w = match query_pending s (w_now w) (s_user s u) (s_dists s) with Ok r => Ok (r, w) | Err er => Err er end.
Proof.
  intros R E. unfold stake_query_rewards. rewrite (run_bind _ _ _ tt w) by (apply run_enter; eapply gd_cstake; [eapply reach_good|]; eauto).
  rewrite (run_bind _ _ _ s w) by (unfold get_stake, mbind, mget, mgets; unfold stake_at in E; rewrite E; reflexivity).
  rewrite (run_bind _ _ _ (w_now w) w) by reflexivity. unfold mlift. destruct (query_pending _ _ _ _); reflexivity.
Qed.

(** the reward of a stake for one distribution: the pro-rata share, scaled by the age in days up to
    60 over 60 (a factor kept to 18 decimals), both rounded down *)
Definition reward (amt ts d A T : Z) : Z :=
  let share := amt * A / T in
  let days := (d - ts) / 86400 in
  if 60 <=? days then share else share * (days * 10^18 / 60) / 10^18.

Lemma reward_bounds amt ts d A T : 0 <= amt -> 0 <= A -> 0 < T -> ts <= d -> 0 <= reward amt ts d A T <= amt * A / T.
Proof.
  intros P PA PT L. unfold reward. set (sh := amt * A / T). assert (Sh : 0 <= sh) by (apply Z.div_pos; nia).
  destruct (Z.leb_spec 60 ((d - ts) / 86400)) as [_|Hd]; [lia|].
  assert (0 <= (d - ts) / 86400) by (apply Z.div_pos; lia). set (n := (d - ts) / 86400) in *.
  assert (N1 : 0 <= n * 10^18 / 60 <= 10^18).
  { split; [apply Z.div_pos; lia|]. apply Z.div_le_upper_bound; lia. }
  split; [apply Z.div_pos; nia|]. apply Z.div_le_upper_bound; [lia|]. nia.
Qed.

Lemma wrap_id x : 0 <= x <= I128_MAX -> wrap_i128 x = x.
Proof. intros. unfold wrap_i128. destruct (Z.leb_spec x I128_MAX); lia. Qed.
Lemma stake_share_exact k d A T v : 0 < k_amt k -> 0 <= A <= I128_MAX -> 0 < T -> (k_ts k < d -> k_amt k <= T) ->
  stake_share k d A T = Ok v -> k_ts k <= d /\ v = reward (k_amt k) (k_ts k) d A T.
Proof.
  intros P PA PT Le H. pose proof H as H0. apply stake_share_le in H0; [|lia..]. destruct H0 as [_ L]. split; auto.
  unfold stake_share in H. rewrite as_u128_pos in H by lia. unfold mul_u, div_u, sub_64, chk in H.
  destruct (in_u128 (k_amt k * A)); [|discriminate]. unfold rbind at 1 in H.
  destruct (Z.eqb_spec T 0) as [T0|_]; [lia|]. unfold rbind at 1 in H.
  destruct (in_u64 (d - k_ts k)); [|discriminate]. unfold rbind at 1 in H.
  unfold reward. set (sh := k_amt k * A / T) in *. assert (Sh : 0 <= sh) by (apply Z.div_pos; nia).
  change SECONDS_PER_DAY with 86400 in H. set (n := (d - k_ts k) / 86400) in *.
  assert (Nn : 0 <= n) by (apply Z.div_pos; lia).
  match type of H with rbind ?m _ = _ => destruct m as [mu|] eqn:M; [|discriminate] end. unfold rbind in H.
  apply i_mul_dec_ok in H. subst v.
  destruct (Z.lt_ge_cases (k_ts k) d) as [Lt|Ge].
  - assert (Le2 : sh <= A) by (apply Z.div_le_upper_bound; nia). rewrite wrap_id by lia.
    destruct (Z.leb_spec 60 n).
    + inversion M; subst mu. unfold dec_one. rewrite Z.quot_div_nonneg by (unfold DEC; lia). rewrite Z.div_mul by (unfold DEC; lia). auto.
    + apply dec_from_ratio_pos in M; [|lia..]. destruct M as [M1 [-> _]]. change DEC with (10^18) in *.
      rewrite Z.quot_div_nonneg by nia. reflexivity.
  - assert (N0 : n = 0) by (unfold n; replace (d - k_ts k) with 0 by lia; reflexivity). rewrite N0 in *. simpl in M. 
    apply dec_from_ratio_ok in M. destruct M as [_ [_ ->]]. rewrite Z.mul_0_l, Z.quot_0_l by lia. rewrite Z.mul_0_r.
    rewrite Z.quot_0_l by (unfold DEC; lia). simpl. rewrite Z.mul_0_r. reflexivity.
Qed.

(** older stakes never exceed the total recorded for a day *)
Lemma stake_le_total w c s u k d T : StakeInv w c s -> fget d (s_tsh s) = Some T -> In k (stakes_of s u) -> k_ts k < d -> k_amt k <= T.
Proof.
  intros I Et K L. destruct (sv_tsh _ _ _ I _ _ Et) as [_ [_ B]].
  assert (P : forall a b, In (a, b) (s_users s) -> 0 <= before d b).
  { intros a b Ib. apply (before_le (w_now w)). eapply sv_user; eauto. }
  unfold stakes_of in K. destruct (fget u (s_users s)) as [b|] eqn:Eb; [|destruct K].
  pose proof (fsum_ge_get (before d) u b (s_users s) P Eb) as Q. apply fget_in in Eb.
  pose proof (su_stakes _ _ (sv_user _ _ _ I _ _ Eb)) as U. enough (k_amt k <= before d b) by lia.
  unfold before. clear - K L U. revert K U. generalize (b_stakes b). induction l as [|x l IH]; simpl; intros I P; [tauto|].
  assert (Ex : 0 <= old_amt d x) by (specialize (P x (or_introl eq_refl)); unfold old_amt; destruct (_ <? _); lia).
  destruct I as [->|I].
  - assert (0 <= ksum (old_amt d) l).
    { apply ksum_nonneg. intros y Y. specialize (P y (or_intror Y)). unfold old_amt. destruct (_ <? _); lia. }
    unfold old_amt in *. destruct (Z.ltb_spec (k_ts k) d); lia.
  - specialize (IH I (fun y Y => P y (or_intror Y))). lia.
Qed.

Lemma pending_formula w c s u a h p : StakeInv w c s -> 0 <= w_now w -> fget a (s_rh s) = Some h ->
  pending_rewards s (w_now w) a (s_user s u) = Ok p ->
  p = sum_of (fun d => if last_claim s u <? d then
        match fget d h, fget d (s_tsh s) with
        | Some A, Some T => if T =? 0 then 0 else sum_of (fun k => reward (k_amt k) (k_ts k) d A T) (stakes_of s u)
        | _, _ => 0 end else 0) (fkeys h) /\
  (forall d A T k, fget d h = Some A -> fget d (s_tsh s) = Some T -> 0 < T -> last_claim s u < d -> In k (stakes_of s u) -> k_ts k <= d) /\
  0 <= p.
Proof.
  intros I P Eh H. destruct (sv_hist _ _ _ I _ _ Eh) as [Sh Hh]. pose proof (s_user_ok _ _ _ u I P) as U.
  destruct (pending_ok _ _ _ _ _ _ Eh Sh H) as [-> O].
  rewrite last_user, stakes_user in O.
  assert (EX : forall d A T k, fget d h = Some A -> fget d (s_tsh s) = Some T -> 0 < T -> last_claim s u < d -> In k (stakes_of s u) ->
    stake_share k d A T = Ok (reward (k_amt k) (k_ts k) d A T) /\ k_ts k <= d /\ 0 <= reward (k_amt k) (k_ts k) d A T).
  { intros d A T k E1 E2 PT L K. destruct (Hh _ _ E1) as [PA [Pd _]]. destruct (O _ _ _ _ E1 E2 PT ltac:(lia) K) as [v Hv].
    pose proof K as K0. rewrite <- stakes_user in K0. pose proof (su_stakes _ _ U _ K0) as [KP _].
    pose proof (stake_share_exact _ _ _ _ _ KP PA PT (stake_le_total _ _ _ _ _ _ _ I E2 K) Hv) as [L1 ->].
    split; auto. split; auto. apply reward_bounds; lia. }
  assert (Q : forall l, zsum (pend_day h (s_tsh s) (w_now w) (s_user s u)) l = sum_of (fun d => if last_claim s u <? d then
        match fget d h, fget d (s_tsh s) with
        | Some A, Some T => if T =? 0 then 0 else sum_of (fun k => reward (k_amt k) (k_ts k) d A T) (stakes_of s u)
        | _, _ => 0 end else 0) l).
  { induction l as [|d l IH]; simpl; auto. rewrite IH. f_equal. unfold pend_day. rewrite last_user. unfold day_pay. rewrite stakes_user.
    destruct (Z.ltb_spec (last_claim s u) d); [|reflexivity]. simpl.
    destruct (fget d h) as [A|] eqn:E1; [|destruct (_ <=? _); auto]. destruct (Hh _ _ E1) as [PA [Pd _]].
    destruct (Z.leb_spec d (w_now w)); [|lia]. destruct (fget d (s_tsh s)) as [T|] eqn:E2; [|auto].
    destruct (sv_tsh _ _ _ I _ _ E2) as [PT _]. destruct (Z.eqb_spec T 0); destruct (Z.ltb_spec 0 T); try lia.
    rewrite <- ksum_of. apply ksum_ext. intros k K. rewrite (proj1 (EX _ _ _ _ E1 E2 ltac:(lia) ltac:(lia) K)). reflexivity. }
  split; [apply Q|]. split; [intros; eapply EX; eauto|]. apply zsum_nonneg. intros d _. unfold pend_day.
  rewrite last_user. unfold day_pay. rewrite stakes_user. destruct (_ && _) eqn:Bd; [|lia].
  destruct (fget d h) as [A|] eqn:E1; [|lia]. destruct (fget d (s_tsh s)) as [T|] eqn:E2; [|lia]. destruct (Z.ltb_spec 0 T); [|lia].
  apply ksum_nonneg. intros k K. destruct (EX _ _ _ _ E1 E2 ltac:(lia) ltac:(lia) K) as [-> [_ Q2]]. exact Q2.
Qed.

Lemma claimable_pending H w c s u rt v : reachable H w -> stake_at w c s -> claimable w c u rt v ->
  In rt (s_dists s) /\ pending_rewards s (w_now w) rt (s_user s u) = Ok v /\ 0 <= v.
Proof.
  intros R E [l [Hq Il]]. rewrite (query_run _ _ _ _ _ R E) in Hq. pose proof (reach_stake _ _ R _ _ E) as I.
  destruct (query_pending _ _ _ _) as [r|] eqn:Eq; [|discriminate]. inversion Hq; subst r.
  apply query_pending_ok in Eq. destruct Eq as [Q1 Q2]. destruct (Q2 _ _ Il) as [p [Hp ->]].
  assert (Id : In rt (s_dists s)). { rewrite <- Q1. apply in_map_iff. exists (rt, as_u128 p). auto. }
  pose proof (proj1 (sv_rh _ _ _ I rt) Id) as F. unfold fmem in F. destruct (fget rt (s_rh s)) as [h|] eqn:Eh; [|discriminate].
  pose proof (pending_formula _ _ _ _ _ _ _ I ltac:(apply (reach_now _ _ R)) Eh Hp) as [_ [_ P]].
  rewrite as_u128_pos by auto. auto.
Qed.

(** ** C38 *)
Theorem C38_reward_solvency H l w c s rt q : run_if (keeps_day_total c) H w_empty l w -> stake_at w c s ->
  NoDup (map fst q) -> Forall (fun x => claimable w c (fst x) rt (snd x)) q ->
  sum_of snd q + on (rt =? s_lp s) (s_total s) <= bal w rt c.
Proof.
  intros F E N C. destruct (fair_solv _ _ _ _ _ F E) as [R V]. specialize (V rt).
  pose proof (reach_stake _ _ R _ _ E) as I. pose proof (proj1 (reach_now _ _ R)) as P.
  enough (sum_of snd q <= oblig s rt) by (unfold principal, on in *; destruct (rt =? s_lp s); lia).
  destruct q as [|x0 q0]; [simpl; eapply oblig_nonneg; eauto|].
  assert (Id : In rt (s_dists s)). { inversion C; subst. eapply claimable_pending; eauto. }
  pose proof (proj1 (sv_rh _ _ _ I rt) Id) as Fm. unfold fmem in Fm. unfold oblig. destruct (fget rt (s_rh s)) as [h|] eqn:Eh; [|discriminate].
  assert (DP : forall a b, In (a, b) (s_users s) -> 0 <= user_due h (s_tsh s) b).
  { intros a b Ib. eapply user_due_nonneg; eauto. eapply sv_user; eauto. }
  pose proof (fsum_ge_some (user_due h (s_tsh s)) (s_users s) (map fst (x0 :: q0)) (sv_sorted _ _ _ I) N DP) as Q.
  eapply Z.le_trans; [|exact Q]. clear Q N. revert C. generalize (x0 :: q0). clear x0 q0. intros q C.
  induction C as [|[u v] q C1 C2 IH]; simpl; [lia|].
  destruct (claimable_pending _ _ _ _ _ _ _ R E C1) as [_ [Hp Pv]]. simpl in *.
  assert (U : SUser (w_now w) (s_user s u)) by (eapply s_user_ok; eauto).
  pose proof (pending_le _ _ _ _ _ _ _ I U Eh Hp) as L. unfold s_user, fgetd in L. destruct (fget u (s_users s)) as [b|] eqn:Eb; [lia|].
  enough (v = 0) by lia. eapply pend_nostakes; [|exact Hp]. unfold s_user, fgetd. rewrite Eb. reflexivity.
Qed.
Print Assumptions C38_reward_solvency.

(** ** C39 *)
Theorem C39_withdraw_pays_what_is_announced H w e c s u w' : reachable H w -> stake_at w c s -> u <> c ->
  exec e (CWithdrawRewards c u) w = Ok (tt, w') ->
  exists l, stake_query_rewards c u w = Ok (l, w) /\ map fst l = s_dists s /\
    (forall a v, In (a, v) l -> bal w' a u = bal w a u + v /\ bal w' a c = bal w a c - v) /\
    (forall a x, ~ In a (s_dists s) \/ (x <> u /\ x <> c) -> bal w' a x = bal w a x).
Proof.
  intros R E N X. pose proof (reach_stake _ _ R _ _ E) as I. simpl in X. apply stake_withdraw_ok in X.
  2:{ intros s0 E0. unfold stake_at in E. rewrite E in E0. inversion E0; subst. apply I. }
  destruct X as [s0 [s' [B1 B2 B3 [w1 [M Ew]] _]]]. unfold stake_at in E. rewrite E in B2. inversion B2; subst s0.
  rewrite (query_run _ _ _ _ u R E).
  assert (Q : forall l, (forall a, In a l -> In a (s_dists s)) -> exists r, query_pending s (w_now w) (s_user s u) l = Ok r).
  { induction l as [|a l IH]; simpl; intros Il; [eauto|]. rewrite (B3 a) by (apply Il; auto). unfold rbind.
    destruct IH as [r ->]; [intros; apply Il; auto|]. eauto. }
  destruct (Q _ (fun a i => i)) as [r Hr]. rewrite Hr. exists r. split; [reflexivity|].
  apply query_pending_ok in Hr. destruct Hr as [Q1 Q2]. split; [auto|].
  split.
  - intros a v Ia. destruct (Q2 _ _ Ia) as [p [Hp ->]].
    assert (Id : In a (s_dists s)). { rewrite <- Q1. apply in_map_iff. exists (a, as_u128 p). auto. }
    pose proof (pd_pos _ _ _ _ _ _ M _ Id) as PP. unfold pays in PP. rewrite Hp in PP. simpl in PP. rewrite as_u128_pos by lia.
    rewrite Ew. change (bal (set_stake w1 _) a u) with (bal w1 a u). change (bal (set_stake w1 _) a c) with (bal w1 a c).
    rewrite !(pd_bal _ _ _ _ _ _ M). unfold pays. rewrite Hp. rewrite (proj2 (zmem_in _ _) Id), !Z.eqb_refl.
    destruct (Z.eqb_spec u c); [congruence|]. destruct (Z.eqb_spec c u); [congruence|]. simpl. lia.
  - intros a x K. rewrite Ew. change (bal (set_stake w1 _) a x) with (bal w1 a x). rewrite (pd_bal _ _ _ _ _ _ M).
    destruct K as [K|[K1 K2]].
    + rewrite (proj2 (zmem_not_in _ _) K). simpl. lia.
    + destruct (Z.eqb_spec x u); [congruence|]. destruct (Z.eqb_spec x c); [congruence|]. rewrite andb_false_r. simpl. lia.
Qed.
Print Assumptions C39_withdraw_pays_what_is_announced.

Definition not_distributing (c : Addr) (w : World) (k : Call) : Prop :=
  match k with CDistribute c' _ _ _ => c' <> c | _ => True end.
(** every recorded day is claimed by [u] *)
Definition all_claimed (c u : Addr) (w : World) : Prop :=
  exists s, stake_at w c s /\ forall a h d A, fget a (s_rh s) = Some h -> fget d h = Some A -> d <= b_last (s_user s u).
Lemma user_set s u b' x : s_user (set_s_users s (fset u b' (s_users s))) x = if x =? u then b' else s_user s x.
Proof. unfold s_user; simpl. apply fgetd_set. Qed.
Lemma claimed_run H c u w l w' : run_if (not_distributing c) H w l w' -> reachable H w -> all_claimed c u w -> all_claimed c u w'.
Proof.
  apply run_if_inv.
  - intros e k w1 w2 _ R K X [s [Es C]]. pose proof (reach_good _ _ R) as G. pose proof (reach_stake _ _ R _ _ Es) as I.
    destruct (stake_step _ _ _ _ _ _ X G Es (sv_nodup _ _ _ I)) as [s2 [E2 St]]. exists s2. split; auto.
    intros a h d A E1 E3. destruct St; subst; simpl in *.
    + match goal with V : SBond _ _ _ _ _ _ _ _ _ |- _ => destruct V end. subst s'. simpl in E1.
      assert (Q : b_last (s_user s u) <= b_last (s_user (set_s_total (set_s_users s (fset u0 (mkBonding (b_stakes (s_user s u0) ++ [mkStakeE amt (w_now w1)]) (b_last (s_user s u0)) (b_total (s_user s u0) + amt)) (s_users s))) (s_total s + amt)) u)).
      { unfold s_user at 2; simpl. rewrite fgetd_set. destruct (Z.eqb_spec u u0); simpl; [subst|]; unfold s_user; lia. }
      specialize (C _ _ _ _ E1 E3). lia.
    + match goal with V : SUnbond _ _ _ _ _ _ _ _ _ _ _ |- _ => destruct V end. subst s'. simpl in E1.
      specialize (C _ _ _ _ E1 E3). unfold s_user; simpl. rewrite fgetd_set. destruct (Z.eqb_spec u u0); simpl; [subst|]; exact C.
    + match goal with V : SFlow _ _ _ _ _ _ _ _ _ |- _ => destruct V end. subst s'. simpl in E1. rewrite fget_set in E1.
      destruct (Z.eqb_spec a a0); [inversion E1; subst h; discriminate|]. apply (C _ _ _ _ E1 E3).
    + exfalso. apply K; reflexivity.
    + match goal with V : SWith _ _ _ _ _ _ _ |- _ => destruct V end. subst s'. simpl in E1. rewrite user_set.
      destruct (Z.eqb_spec u u0); [|apply (C _ _ _ _ E1 E3)]. simpl. apply (sv_hist _ _ _ I _ _ E1) in E3. lia.
    + apply (C _ _ _ _ E1 E3).
  - intros w1 n sq _ [s [E C]]. exists s. split; auto.
Qed.
Lemma find_none_all p (l : list Z) : (forall x, In x l -> p x = false) -> find p l = None.
Proof. induction l as [|x l IH]; simpl; intros H; auto. rewrite H by auto. auto. Qed.

Theorem C39_nothing_left_after_withdrawal H w e c u w1 l w2 : reachable H w ->
  exec e (CWithdrawRewards c u) w = Ok (tt, w1) -> e_hash e = H -> run_if (not_distributing c) H w1 l w2 ->
  exists s, stake_at w2 c s /\ stake_query_rewards c u w2 = Ok (map (fun a => (a, 0)) (s_dists s), w2) /\
    forall e2 w3, exec e2 (CWithdrawRewards c u) w2 = Ok (tt, w3) -> forall a x, bal w3 a x = bal w2 a x.
Proof.
  intros R X He Rn. pose proof X as X0.
  assert (R1 : reachable H w1). { eapply reach_run; [exact R|]. econstructor; [|constructor]. constructor; eauto. }
  assert (R2 : reachable H w2) by (eapply reach_run; [exact R1|]; eapply run_if_run; eauto).
  simpl in X. apply stake_withdraw_ok in X.
  2:{ intros s0 E0. apply (reach_stake _ _ R _ _ E0). }
  destruct X as [s [s' [B1 B2 B3 [wa [M Ew]] Es]]]. pose proof (reach_stake _ _ R _ _ B2) as I.
  assert (AC : all_claimed c u w1).
  { exists s'. split; [rewrite Ew; unfold stake_at; simpl; apply fget_set_same|]. intros a h d A E1 E3. subst s'. simpl in E1.
    rewrite user_set, Z.eqb_refl. simpl. apply (sv_hist _ _ _ I _ _ E1) in E3. lia. }
  destruct (claimed_run _ _ _ _ _ _ Rn R1 AC) as [s2 [E2 C2]]. exists s2. split; auto.
  pose proof (reach_stake _ _ R2 _ _ E2) as I2.
  assert (Z0 : forall a, In a (s_dists s2) -> pending_rewards s2 (w_now w2) a (s_user s2 u) = Ok 0).
  { intros a Ia. pose proof (proj1 (sv_rh _ _ _ I2 a) Ia) as F. unfold fmem in F. unfold pending_rewards. destruct (fget a (s_rh s2)) as [h|] eqn:Eh; [|discriminate].
    unfold of_option, rbind. rewrite find_none_all; auto. intros d Id. destruct (sv_hist _ _ _ I2 _ _ Eh) as [Sh _].
    apply sorted_mem in Id; auto. unfold fmem in Id. destruct (fget d h) as [A|] eqn:Ed; [|discriminate]. specialize (C2 _ _ _ _ Eh Ed). lia. }
  split.
  - rewrite (query_run _ _ _ _ u R2 E2).
    assert (Q : forall l, (forall a, In a l -> In a (s_dists s2)) -> query_pending s2 (w_now w2) (s_user s2 u) l = Ok (map (fun a => (a, 0)) l)).
    { induction l0 as [|a l0 IH]; simpl; intros Il; auto. rewrite Z0 by (apply Il; auto). unfold rbind. rewrite IH by (intros; apply Il; auto). reflexivity. }
    rewrite Q by auto. reflexivity.
  - intros e2 w3 X3 a x. simpl in X3. apply stake_withdraw_ok in X3; [|intros s0 E0; apply (reach_stake _ _ R2 _ _ E0)].
    destruct X3 as [s3 [s4 [D1 D2 D3 [wb [M3 Ew3]] _]]]. unfold stake_at in E2. rewrite E2 in D2. inversion D2; subst s3.
    rewrite Ew3. change (bal (set_stake wb _) a x) with (bal wb a x). rewrite (pd_bal _ _ _ _ _ _ M3).
    destruct (zmem a (s_dists s2)) eqn:Za; simpl; [|lia]. apply zmem_in in Za. unfold pays. rewrite (Z0 _ Za). simpl.
    unfold ind. destruct (x =? c), (x =? u); lia.
Qed.
Print Assumptions C39_nothing_left_after_withdrawal.

(** ** C40 *)
Theorem C40_reward_size H w c s u rt v h : reachable H w -> stake_at w c s -> claimable w c u rt v -> fget rt (s_rh s) = Some h ->
  v = sum_of (fun d => if last_claim s u <? d then
        match fget d h, fget d (s_tsh s) with
        | Some A, Some T => if T =? 0 then 0 else sum_of (fun k => reward (k_amt k) (k_ts k) d A T) (stakes_of s u)
        | _, _ => 0 end else 0) (fkeys h) /\
  (forall d A T k, fget d h = Some A -> fget d (s_tsh s) = Some T -> In k (stakes_of s u) -> k_ts k < d -> k_amt k <= T).
Proof.
  intros R E C Eh. destruct (claimable_pending _ _ _ _ _ _ _ R E C) as [_ [Hp _]].
  pose proof (reach_stake _ _ R _ _ E) as I.
  destruct (pending_formula _ _ _ _ _ _ _ I ltac:(apply (reach_now _ _ R)) Eh Hp) as [Q _]. split; auto.
  intros d A T k E1 E2 K L. eapply stake_le_total; eauto.
Qed.
Print Assumptions C40_reward_size.

Theorem C40_reward_near_linear amt ts d A T : 0 <= amt -> 0 <= A -> 0 < T -> ts <= d ->
  let share := amt * A / T in let days := Z.min 60 ((d - ts) / 86400) in
  0 <= reward amt ts d A T <= share /\ 60 * reward amt ts d A T <= share * days /\
  10^18 * (share * days - 60 * reward amt ts d A T) < 60 * 10^18 + 60 * share.
Proof.
  intros P PA PT L. cbv zeta. pose proof (reward_bounds _ _ _ _ _ P PA PT L) as B. split; auto.
  unfold reward in *. set (sh := amt * A / T) in *. assert (Sh : 0 <= sh) by (apply Z.div_pos; nia).
  assert (0 <= (d - ts) / 86400) by (apply Z.div_pos; lia). set (n := (d - ts) / 86400) in *.
  destruct (Z.leb_spec 60 n).
  - rewrite Z.min_l by lia. lia.
  - rewrite Z.min_r by lia. pose proof (Z.div_mod (n * 10^18) 60 ltac:(lia)). pose proof (Z.mod_pos_bound (n * 10^18) 60 ltac:(lia)).
    set (m := n * 10^18 / 60) in *. pose proof (Z.div_mod (sh * m) (10^18) ltac:(lia)). pose proof (Z.mod_pos_bound (sh * m) (10^18) ltac:(lia)).
    set (r := sh * m / 10^18) in *.
    assert (E1 : sh * (60 * m) = sh * (n * 10^18) - sh * ((n * 10^18) mod 60)) by nia.
    assert (0 <= sh * ((n * 10^18) mod 60) <= sh * 59) by nia. split; nia.
Qed.
Print Assumptions C40_reward_near_linear.

(** ** C41, C88 *)
(** a stake younger than a distribution its owner has not claimed *)
Definition late_stake (w : World) (c u : Addr) (k : StakeE) : Prop :=
  exists s a h d A T, stake_at w c s /\ In a (s_dists s) /\ fget a (s_rh s) = Some h /\ fget d h = Some A /\ fget d (s_tsh s) = Some T /\
    0 < T /\ last_claim s u < d < k_ts k /\ In k (stakes_of s u).
(** a stake whose full share of a past distribution its owner has not claimed exceeds about 1.7 * 10^20 units *)
Definition oversized_stake (w : World) (c u : Addr) (k : StakeE) : Prop :=
  exists s a h d A T, stake_at w c s /\ In a (s_dists s) /\ fget a (s_rh s) = Some h /\ fget d h = Some A /\ fget d (s_tsh s) = Some T /\
    0 < T /\ last_claim s u < d < w_now w /\ In k (stakes_of s u) /\ k_ts k + 60 * 86400 <= d /\ I128_MAX < k_amt k * A / T * 10^18.

(** either way the reward of the stake cannot be computed *)
Definition stuck_stake (w : World) (c u : Addr) (k : StakeE) : Prop :=
  exists s a h d A T, stake_at w c s /\ In a (s_dists s) /\ fget a (s_rh s) = Some h /\ fget d h = Some A /\ fget d (s_tsh s) = Some T /\
    0 < T /\ (forall v, stake_share k d A T <> Ok v) /\ last_claim s u < d < w_now w /\ In k (stakes_of s u).
Lemma late_stuck H w c u k : reachable H w -> late_stake w c u k -> stuck_stake w c u k.
Proof.
  intros R [s [a [h [d [A [T [E [Ia [Eh [Ed [Et [PT [L K]]]]]]]]]]]]]. exists s, a, h, d, A, T.
  pose proof (reach_stake _ _ R _ _ E) as I. pose proof (s_user_ok _ _ _ u I ltac:(apply (reach_now _ _ R))) as U.
  pose proof K as K0. rewrite <- stakes_user in K0. pose proof (su_stakes _ _ U _ K0) as K1.
  destruct (sv_hist _ _ _ I _ _ Eh) as [_ Hh]. destruct (Hh _ _ Ed) as [PA _].
  repeat (split; [assumption|]). split; [|split; [lia|auto]]. intros v Hv. apply stake_share_le in Hv; lia.
Qed.
Lemma oversized_share k d A T v : 0 < k_amt k -> 0 <= A <= I128_MAX -> 0 < T -> k_amt k <= T -> k_ts k + 60 * 86400 <= d ->
  I128_MAX < k_amt k * A / T * 10^18 -> stake_share k d A T <> Ok v.
Proof.
  intros P PA PT Le L B Hv. unfold stake_share in Hv. rewrite as_u128_pos in Hv by lia. unfold mul_u, div_u, sub_64, chk in Hv.
  destruct (in_u128 (k_amt k * A)); [|discriminate]. unfold rbind at 1 in Hv.
  destruct (Z.eqb_spec T 0) as [T0|_]; [lia|]. unfold rbind at 1 in Hv.
  destruct (in_u64 (d - k_ts k)); [|discriminate]. unfold rbind at 1 in Hv.
  set (sh := k_amt k * A / T) in *. assert (Sh : 0 <= sh) by (apply Z.div_pos; nia).
  assert (Le2 : sh <= A) by (apply Z.div_le_upper_bound; nia).
  assert (60 <= (d - k_ts k) / SECONDS_PER_DAY) by (apply Z.div_le_lower_bound; unfold SECONDS_PER_DAY; lia).
  destruct (Z.leb_spec 60 ((d - k_ts k) / SECONDS_PER_DAY)); [|lia]. unfold rbind in Hv. rewrite wrap_id in Hv by lia.
  unfold i_mul_dec in Hv. destruct (Z.eqb_spec sh 0); [unfold I128_MAX in B; lia|]. change (dec_one =? 0) with false in Hv. simpl orb in Hv. cbv iota in Hv.
  unfold mul_i, chk, rbind in Hv. destruct (in_i128 (sh * dec_one)) eqn:W; [|discriminate]. unfold in_i128, dec_one, DEC in W. lia.
Qed.
Lemma oversized_stuck H w c u k : reachable H w -> oversized_stake w c u k -> stuck_stake w c u k.
Proof.
  intros R [s [a [h [d [A [T [E [Ia [Eh [Ed [Et [PT [L [K [Q1 Q2]]]]]]]]]]]]]]]. exists s, a, h, d, A, T.
  pose proof (reach_stake _ _ R _ _ E) as I. pose proof (s_user_ok _ _ _ u I ltac:(apply (reach_now _ _ R))) as U.
  pose proof K as K0. rewrite <- stakes_user in K0. pose proof (su_stakes _ _ U _ K0) as K1.
  destruct (sv_hist _ _ _ I _ _ Eh) as [_ Hh]. destruct (Hh _ _ Ed) as [PA _].
  repeat (split; [assumption|]). split; [|split; [lia|auto]]. intros v. apply oversized_share; auto; try lia.
  eapply stake_le_total; eauto. lia.
Qed.

Lemma stuck_blocked H w c u k : reachable H w -> stuck_stake w c u k ->
  (forall e w', exec e (CWithdrawRewards c u) w <> Ok (tt, w')) /\ (forall l, stake_query_rewards c u w <> Ok (l, w)).
Proof.
  intros R [s [a [h [d [A [T [E [Ia [Eh [Ed [Et [PT [NS [L K]]]]]]]]]]]]]].
  pose proof (reach_stake _ _ R _ _ E) as I. pose proof (proj1 (reach_now _ _ R)) as P.
  assert (Q : forall p, pending_rewards s (w_now w) a (s_user s u) <> Ok p).
  { intros p Hp. destruct (sv_hist _ _ _ I _ _ Eh) as [Sh _]. destruct (pending_ok _ _ _ _ _ _ Eh Sh Hp) as [_ Q].
    rewrite last_user, stakes_user in Q. destruct (Q _ _ _ _ Ed Et PT ltac:(lia) K) as [v Hv]. apply (NS _ Hv). }
  split.
  - intros e w' X. simpl in X. apply stake_withdraw_ok in X; [|intros s0 E0; apply (reach_stake _ _ R _ _ E0)].
    destruct X as [s0 [s' [B1 B2 B3 _ _]]]. unfold stake_at in E. rewrite E in B2. inversion B2; subst s0.
    apply (Q _ (B3 _ Ia)).
  - intros l Hq. rewrite (query_run _ _ _ _ u R E) in Hq. destruct (query_pending _ _ _ _) as [r|] eqn:Eq; [|discriminate].
    apply query_pending_ok in Eq. destruct Eq as [Q1 Q2]. rewrite <- Q1 in Ia. apply in_map_iff in Ia. destruct Ia as [[a' v] [Ea Ir]].
    simpl in Ea. subst a'. destruct (Q2 _ _ Ir) as [p [Hp _]]. apply (Q _ Hp).
Qed.
Definition keeps_stake (c u : Addr) (k : StakeE) (w : World) (call : Call) : Prop := call <> CUnbond c u (k_amt k) (k_ts k).

Lemma stuck_run H c u k w l w' : run_if (keeps_stake c u k) H w l w' -> reachable H w -> stuck_stake w c u k -> stuck_stake w' c u k.
Proof.
  apply (run_if_inv (keeps_stake c u k) H (fun x => stuck_stake x c u k)).
  - intros e cl w1 w2 _ R NU X L. pose proof (stuck_blocked _ _ _ _ _ R L) as [NB _].
    destruct L as [s [a [h [d [A [T [E [Ia [Eh [Ed [Et [PT [NS [Ld K]]]]]]]]]]]]]].
    pose proof (reach_good _ _ R) as G. pose proof (reach_stake _ _ R _ _ E) as I.
    assert (En : w_now w2 = w_now w1) by (destruct (exec_framec _ _ _ _ X G) as [_ [_ [En _]]]; auto).
    destruct (stake_step _ _ _ _ _ _ X G E (sv_nodup _ _ _ I)) as [s2 [E2 St]].
    unfold stuck_stake. rewrite En.
    destruct St.
    + match goal with V : SBond _ _ _ _ _ _ _ _ _ |- _ => destruct V end. exists s', a, h, d, A, T. subst s'. simpl.
      repeat (split; [assumption|]). unfold last_claim, stakes_of in *; simpl. rewrite fget_set.
      destruct (Z.eqb_spec u u0); [|split; auto]. subst u0. simpl. rewrite last_user, stakes_user. unfold last_claim, stakes_of.
      split; auto. apply in_or_app. auto.
    + match goal with V : SUnbond _ _ _ _ _ _ _ _ _ _ _ |- _ => destruct V end. exists s', a, h, d, A, T. subst s'. simpl.
      repeat (split; [assumption|]). unfold last_claim, stakes_of in *; simpl. rewrite fget_set.
      destruct (Z.eqb_spec u u0); [|split; auto]. subst u0. simpl. rewrite last_user. unfold last_claim.
      split; auto. destruct (remove_stake_ok _ _ _ _ sn_list) as [k0 [_ [K2 [K3 [_ [_ K6]]]]]].
      rewrite stakes_user in K6. unfold stakes_of in K6. destruct (K6 _ K) as [->|]; auto.
      exfalso. apply NU. congruence.
    + match goal with V : SFlow _ _ _ _ _ _ _ _ _ |- _ => destruct V end. exists s', a, h, d, A, T. subst s'. simpl.
      split; [assumption|]. split; [apply in_or_app; auto|]. rewrite fget_set_other by (intros ->; auto). unfold last_claim, stakes_of in *; simpl; auto 10.
    + match goal with V : SDist _ _ _ _ _ _ _ _ _ _ _ |- _ => destruct V end.
      destruct (Z.eq_dec a a0) as [->|Na].
      * assert (h0 = h) by congruence. subst h0. exists s', a0, (fset (w_now w1) (as_u128 amt) h), d, A, T. subst s'. simpl. rewrite fget_set_same.
        rewrite !fget_set_other by lia. unfold last_claim, stakes_of in *; simpl; auto 10.
      * exists s', a, h, d, A, T. subst s'. simpl. rewrite (fget_set_other a0), !fget_set_other by (auto; lia). unfold last_claim, stakes_of in *; simpl; auto 10.
    + match goal with V : SWith _ _ _ _ _ _ _ |- _ => destruct V end. exists s', a, h, d, A, T. subst s'. simpl.
      repeat (split; [assumption|]). unfold last_claim, stakes_of in *; simpl. rewrite fget_set.
      destruct (Z.eqb_spec u u0); [|split; auto]. subst u0. exfalso. subst cl. eapply NB; eauto.
    + exists s, a, h, d, A, T. auto 10.
  - intros w1 n sq Ln [s [a [h [d [A [T [E [E1 [E2 [E3 [E4 [E5 [E6 [E7 E8]]]]]]]]]]]]]]. exists s, a, h, d, A, T. repeat (split; [assumption|]).
    split; auto. change (w_now (set_time w1 n sq)) with n. lia.
Qed.
(** a user who stakes after a distribution and before claiming it can never withdraw any reward of
    any token, and the query fails too, until they unbond that stake *)
Theorem C41_late_staker_blocked_for_good H w c u k l w' : reachable H w -> late_stake w c u k -> run_if (keeps_stake c u k) H w l w' ->
  (forall e w2, exec e (CWithdrawRewards c u) w' <> Ok (tt, w2)) /\ (forall q, stake_query_rewards c u w' <> Ok (q, w')).
Proof.
  intros R L Rn. eapply stuck_blocked; [|eapply stuck_run; eauto; eapply late_stuck; eauto]. eapply reach_run; [exact R|]. eapply run_if_run; eauto.
Qed.
Print Assumptions C41_late_staker_blocked_for_good.
(** the same happens to the owner of a long held stake when one distribution is worth more than about
    1.7 * 10^20 units to it (170 tokens of 18 decimals) *)
Theorem C88_oversized_reward_blocks_for_good H w c u k l w' : reachable H w -> oversized_stake w c u k -> run_if (keeps_stake c u k) H w l w' ->
  (forall e w2, exec e (CWithdrawRewards c u) w' <> Ok (tt, w2)) /\ (forall q, stake_query_rewards c u w' <> Ok (q, w')).
Proof.
  intros R L Rn. eapply stuck_blocked; [|eapply stuck_run; eauto; eapply oversized_stuck; eauto]. eapply reach_run; [exact R|]. eapply run_if_run; eauto.
Qed.
Print Assumptions C88_oversized_reward_blocks_for_good.

(** when withdrawing does work *)
Lemma stake_share_runs k d A T : 0 < k_amt k -> 0 <= A -> 0 < T -> 0 <= k_ts k <= d -> d <= U64_MAX -> (k_ts k < d -> k_amt k <= T) ->
  k_amt k * A <= U128_MAX -> A * 10^18 <= I128_MAX -> exists v, stake_share k d A T = Ok v.
Proof.
  intros P PA PT L Ld Le M1 M2. unfold stake_share. rewrite as_u128_pos by lia. unfold mul_u, div_u, sub_64.
  rewrite chk_ok by (unfold in_u128; nia). unfold rbind at 1. destruct (Z.eqb_spec T 0) as [T0|_]; [lia|].
  unfold rbind at 1. rewrite chk_ok by (unfold in_u64; lia). unfold rbind at 1. unfold SECONDS_PER_DAY.
  set (sh := k_amt k * A / T). assert (Sh : 0 <= sh) by (apply Z.div_pos; nia).
  set (n := (d - k_ts k) / 86400). assert (Nn : 0 <= n) by (apply Z.div_pos; lia).
  assert (MM : exists mu, (if 60 <=? n then Ok dec_one else dec_from_ratio n 60) = Ok mu /\ 0 <= mu <= 10^18 /\ (k_ts k = d -> mu = 0)).
  { destruct (Z.leb_spec 60 n).
    - exists dec_one. split; auto. split; [unfold dec_one, DEC; lia|]. intros E. exfalso. assert (n = 0) by (unfold n; rewrite E, Z.sub_diag; reflexivity). lia.
    - unfold dec_from_ratio. simpl (60 =? 0). cbv iota. unfold mul_i, div_i. rewrite chk_ok by (unfold in_i128, DEC, I128_MIN, I128_MAX; lia).
      unfold rbind. simpl (60 =? 0). cbv iota. 
      assert (Q : Z.quot (n * DEC) 60 = n * 10^18 / 60) by (rewrite Z.quot_div_nonneg by (unfold DEC; lia); reflexivity).
      rewrite Q. assert (B : 0 <= n * 10^18 / 60 <= 10^18) by (split; [apply Z.div_pos; lia|apply Z.div_le_upper_bound; lia]).
      exists (n * 10^18 / 60). split; [|split; auto].
      + try reflexivity; apply chk_ok; unfold in_i128, I128_MIN, I128_MAX; lia.
      + intros E. unfold n. rewrite E, Z.sub_diag. reflexivity. }
  destruct MM as [mu [-> [Mb Mz]]]. unfold rbind. unfold i_mul_dec.
  destruct (Z.eqb_spec (wrap_i128 sh) 0); [simpl; eauto|]. destruct (Z.eqb_spec mu 0); [simpl; eauto|]. simpl orb. cbv iota.
  assert (Lt : k_ts k < d) by (assert (k_ts k <> d) by (intros E; auto); lia).
  assert (Le2 : sh <= A) by (apply Z.div_le_upper_bound; [lia|]; specialize (Le Lt); nia).
  rewrite wrap_id by lia. unfold mul_i. rewrite chk_ok by (unfold in_i128, I128_MIN; nia). unfold rbind, div_i. change (DEC =? 0) with false. cbv iota.
  assert (B : 0 <= Z.quot (sh * mu) DEC <= I128_MAX).
  { rewrite Z.quot_div_nonneg by (unfold DEC; nia). split; [apply Z.div_pos; unfold DEC; nia|]. apply Z.div_le_upper_bound; [unfold DEC; lia|].
    unfold DEC. unfold I128_MAX in *. nia. }
  eexists. try reflexivity; apply chk_ok; unfold in_i128, I128_MIN; lia.
Qed.

Lemma day_rewards_runs l : forall d A T acc, (forall k, In k l -> exists v, stake_share k d A T = Ok v /\ 0 <= v) -> 0 <= acc ->
  acc + ksum (fun k => okz (stake_share k d A T)) l <= I128_MAX ->
  day_rewards l d A T acc = Ok (acc + ksum (fun k => okz (stake_share k d A T)) l).
Proof.
  induction l as [|k l IH]; intros d A T acc Hk P L.
  - simpl. f_equal. lia.
  - change (day_rewards (k :: l) d A T acc) with (let? r := stake_share k d A T in let? acc' := add_i acc r in day_rewards l d A T acc').
    change (ksum (fun k0 => okz (stake_share k0 d A T)) (k :: l)) with (okz (stake_share k d A T) + ksum (fun k0 => okz (stake_share k0 d A T)) l) in *.
    destruct (Hk k (or_introl eq_refl)) as [v [Hv Pv]]. rewrite Hv in *. unfold okz at 1 in L. unfold okz at 1.
    assert (0 <= ksum (fun k0 => okz (stake_share k0 d A T)) l).
    { apply ksum_nonneg. intros k0 K0. destruct (Hk k0 (or_intror K0)) as [v0 [-> P0]]. exact P0. }
    unfold rbind at 1. unfold add_i. rewrite chk_ok by (unfold in_i128, I128_MIN; lia). unfold rbind.
    rewrite IH; [f_equal; lia|intros; apply Hk; right; auto|lia|lia].
Qed.
Lemma day_pay_nonneg h tsh l d : (forall A T k, fget d h = Some A -> fget d tsh = Some T -> 0 < T -> In k l -> exists v, stake_share k d A T = Ok v /\ 0 <= v) ->
  0 <= day_pay h tsh l d.
Proof.
  intros Hk. unfold day_pay. destruct (fget d h) as [A|]; [|lia]. destruct (fget d tsh) as [T|]; [|lia]. destruct (Z.ltb_spec 0 T); [|lia].
  apply ksum_nonneg. intros k K. destruct (Hk A T k eq_refl eq_refl ltac:(lia) K) as [v [-> P]]. exact P.
Qed.
Lemma pend_days_runs days : forall h tsh l acc,
  (forall d A T k, In d days -> fget d h = Some A -> fget d tsh = Some T -> 0 < T -> In k l -> exists v, stake_share k d A T = Ok v /\ 0 <= v) ->
  0 <= acc -> acc + zsum (day_pay h tsh l) days <= I128_MAX ->
  pend_days days h tsh l acc = Ok (acc + zsum (day_pay h tsh l) days).
Proof.
  induction days as [|d days IH]; intros h tsh l acc Hk P L.
  - simpl. f_equal. lia.
  - simpl in L. pose proof (day_pay_nonneg h tsh l d (fun A T k => Hk d A T k (or_introl eq_refl))) as D0.
    assert (D1 : 0 <= zsum (day_pay h tsh l) days).
    { apply zsum_nonneg. intros d' I. apply day_pay_nonneg. intros A T k. apply Hk. right; auto. }
    assert (E : (match fget d h, fget d tsh with
         | Some daily, Some total => if 0 <? total then day_rewards l d daily total acc else Ok acc
         | _, _ => Ok acc end) = Ok (acc + day_pay h tsh l d)).
    { unfold day_pay in *. destruct (fget d h) as [A|] eqn:E1; [|f_equal; lia]. destruct (fget d tsh) as [T|] eqn:E2; [|f_equal; lia].
      destruct (Z.ltb_spec 0 T); [|f_equal; lia]. rewrite day_rewards_runs; auto; [|lia].
      intros k K. apply (Hk d A T k); auto. left; auto. }
    unfold pend_days; fold pend_days. rewrite E. unfold rbind. rewrite IH; simpl; [f_equal; lia|intros; eapply Hk; eauto; right; auto|lia|lia].
Qed.

Lemma is_tok_dec w t : is_tok w t <-> tdec w t <> None.
Proof. unfold is_tok, tdec. destruct (fget t (w_tok w)); split; try congruence; eauto. intros [k K]; discriminate. Qed.

Lemma pay_rewards_runs e self u s t b l p : forall w, Good w -> fget self (w_code w) = Some KStake -> NoDup l -> u <> self ->
  (forall a, In a l -> pending_rewards s t a b = Ok (p a) /\ 0 <= p a <= bal w a self /\ is_tok w a /\ bal w a u + p a <= I128_MAX) ->
  exists w', pay_rewards e self u s t b l w = Ok (tt, w') /\ w_code w' = w_code w.
Proof.
  induction l as [|a l IH]; intros w G Hc N Nu Hl; [simpl; eexists; split; reflexivity|].
  inversion N as [|? ? N1 N2]; subst. destruct (Hl a (or_introl eq_refl)) as [H1 [H2 [H3 H4]]].
  simpl. rewrite (run_bind _ _ _ (p a) w) by (apply run_lift; auto).
  assert (Au : authed e (Some self) self = true) by (unfold authed; rewrite Z.eqb_refl; apply orb_true_r).
  destruct (tok_transfer_runs e (Some self) a self u (p a) w G Au H3 H2 ltac:(auto) H4) as [w1 X1].
  rewrite (run_bind _ _ _ tt w1) by exact X1.
  pose proof (tok_transfer_moved _ _ _ _ _ _ _ _ _ X1) as [_ M].
  pose proof (frame_transfer e (Some self) KStake a self u (p a) _ _ _ X1) as Fr.
  destruct (Fr G ltac:(intros s0 E0; inversion E0; subst; auto)) as [G1 _].
  assert (Ec : w_code w1 = w_code w) by (rewrite (mv_rest _ _ _ _ _ _ M); reflexivity). rewrite <- Ec.
  apply IH; auto; [rewrite Ec; auto|].
  intros a' I'. destruct (Hl a' (or_intror I')) as [K1 [K2 [K3 K4]]]. rewrite !(mv_bal _ _ _ _ _ _ M).
  destruct (Z.eqb_spec a' a); [subst; tauto|]. simpl. split; auto. split; [lia|]. split; [|lia].
  apply is_tok_dec. rewrite (mv_dec _ _ _ _ _ _ M). apply is_tok_dec. auto.
Qed.

Lemma pending_runs w c s u a h : StakeInv w c s -> 0 <= w_now w -> fget a (s_rh s) = Some h ->
  (forall d A T k, fget d h = Some A -> fget d (s_tsh s) = Some T -> 0 < T -> last_claim s u < d -> In k (stakes_of s u) ->
     exists v, stake_share k d A T = Ok v) ->
  user_due h (s_tsh s) (s_user s u) <= I128_MAX ->
  exists p, pending_rewards s (w_now w) a (s_user s u) = Ok p /\ 0 <= p <= user_due h (s_tsh s) (s_user s u).
Proof.
  intros I P Eh Hk Ub. destruct (sv_hist _ _ _ I _ _ Eh) as [Sh Hh]. pose proof (s_user_ok _ _ _ u I P) as U.
  set (b := s_user s u) in *. set (t := w_now w) in *.
  assert (Hk2 : forall d A T k, fget d h = Some A -> fget d (s_tsh s) = Some T -> 0 < T -> b_last b < d -> In k (b_stakes b) ->
     exists v, stake_share k d A T = Ok v /\ 0 <= v <= due_of d A T k).
  { intros d A T k E1 E2 PT L K. unfold b in L, K. rewrite last_user in L. rewrite stakes_user in K. destruct (Hk _ _ _ _ E1 E2 PT L K) as [v Hv].
    exists v. split; auto. destruct (Hh _ _ E1) as [PA _].
    pose proof (stake_le_total _ _ _ _ _ _ _ I E2 K) as Le. rewrite <- stakes_user in K. pose proof (su_stakes _ _ U _ K) as [KP _].
    pose proof (stake_share_exact _ _ _ _ _ KP PA PT Le Hv) as [L1 ->].
    split; [apply reward_bounds; lia|]. apply stake_share_le in Hv; lia. }
  assert (Sum : zsum (pend_day h (s_tsh s) t b) (fkeys h) <= user_due h (s_tsh s) b).
  { apply zsum_le. intros d _. unfold pend_day, owing, day_pay.
    destruct (fget d h) as [A|] eqn:Ed; [|destruct (_ && _); lia]. destruct (fget d (s_tsh s)) as [T|] eqn:Et; [|destruct (_ && _); lia].
    destruct (Hh _ _ Ed) as [PA [Pd _]]. destruct (sv_tsh _ _ _ I _ _ Et) as [PT _].
    pose proof (due_nonneg _ d A T b U ltac:(lia) ltac:(lia)) as DN.
    destruct (Z.ltb_spec (b_last b) d); [|simpl; lia]. destruct (Z.leb_spec d t); [|simpl; lia]. simpl.
    destruct (Z.ltb_spec 0 T); [|lia]. unfold due. destruct (Z.ltb_spec (b_last b) d); [|lia].
    apply ksum_le. intros k K. destruct (Hk2 _ _ _ _ Ed Et ltac:(lia) ltac:(lia) K) as [v [Hv Lv]]. rewrite Hv. simpl. lia. }
  pose proof (rel_days t (b_last b) (fkeys h) _ (sorted_keys h _ Sh)) as F.
  assert (Z0 : zsum (day_pay h (s_tsh s) (b_stakes b)) (filter (fun d => (b_last b <? d) && (d <=? t)) (fkeys h)) =
    zsum (pend_day h (s_tsh s) t b) (fkeys h)) by (rewrite zsum_filter; apply zsum_ext; intros; reflexivity).
  assert (PR : forall d A T k, In d (filter (fun d => (b_last b <? d) && (d <=? t)) (fkeys h)) -> fget d h = Some A -> fget d (s_tsh s) = Some T -> 0 < T ->
     In k (b_stakes b) -> exists v, stake_share k d A T = Ok v /\ 0 <= v).
  { intros d A T k Id E1 E2 PT K. apply filter_In in Id. destruct Id as [_ Id]. destruct (Hk2 _ _ _ _ E1 E2 PT ltac:(lia) K) as [v [Hv Lv]]. exists v. split; auto. lia. }
  exists (0 + zsum (day_pay h (s_tsh s) (b_stakes b)) (filter (fun d => (b_last b <? d) && (d <=? t)) (fkeys h))).
  split; [|rewrite Z0; split; [|lia]].
  - pose proof (pend_days_runs (filter (fun d => (b_last b <? d) && (d <=? t)) (fkeys h)) h (s_tsh s) (b_stakes b) 0 PR ltac:(lia)) as Q.
    unfold pending_rewards. rewrite Eh. unfold of_option, rbind. specialize (Q ltac:(rewrite Z0; lia)).
    rewrite <- F in *. destruct (find _ (fkeys h)); exact Q.
  - rewrite <- Z0. apply zsum_nonneg. intros d Id. apply day_pay_nonneg. intros A T k E1 E2 PT K. eapply PR; eauto.
Qed.

(** ** C41: everybody whose stakes are older than the distributions they have not claimed can withdraw,
    as long as the distributed amounts are below about 1.7 * 10^20 units *)
Theorem C41_early_stakers_can_withdraw H l w c s u e : run_if (keeps_day_total c) H w_empty l w -> stake_at w c s -> u <> c ->
  (forall a h d A k, fget a (s_rh s) = Some h -> fget d h = Some A -> last_claim s u < d -> In k (stakes_of s u) ->
     k_ts k <= d /\ A * 10^18 <= I128_MAX /\ k_amt k * A <= U128_MAX) ->
  (forall a, In a (s_dists s) -> is_tok w a /\ bal w a u + bal w a c <= I128_MAX) ->
  exists w', exec e (CWithdrawRewards c u) w = Ok (tt, w').
Proof.
  intros F E Nu Hs Ht. destruct (fair_solv _ _ _ _ _ F E) as [R V]. pose proof (reach_good _ _ R) as G.
  pose proof (reach_stake _ _ R _ _ E) as I. pose proof (reach_now _ _ R) as P.
  assert (Pn : forall a, In a (s_dists s) -> exists p, pending_rewards s (w_now w) a (s_user s u) = Ok p /\ 0 <= p <= bal w a c).
  { intros a Ia. pose proof (proj1 (sv_rh _ _ _ I a) Ia) as Fm. unfold fmem in Fm. destruct (fget a (s_rh s)) as [h|] eqn:Eh; [|discriminate].
    specialize (V a). unfold oblig in V. rewrite Eh in V. pose proof (good_bal w a c G) as GB.
    assert (DP : forall x b, In (x, b) (s_users s) -> 0 <= user_due h (s_tsh s) b).
    { intros x b Ib. eapply user_due_nonneg; eauto. eapply sv_user; eauto. }
    assert (PB : 0 <= principal s a). { unfold principal. destruct (_ =? _); [|lia]. eapply Z.le_trans; apply (user_total_le _ _ _ u I); lia. }
    assert (Ud : user_due h (s_tsh s) (s_user s u) <= bal w a c).
    { unfold s_user, fgetd. destruct (fget u (s_users s)) as [b|] eqn:Eb.
      - pose proof (fsum_ge_get (user_due h (s_tsh s)) u b (s_users s) DP Eb). lia.
      - enough (user_due h (s_tsh s) (mkBonding [] 0 0) = 0) by lia. unfold user_due. rewrite (zsum_ext _ (fun _ => 0)), zsum_zero; auto. intros d _.
        unfold owing, due. destruct (fget d h); auto. destruct (fget d (s_tsh s)); auto. destruct (_ <? _); auto. }
    destruct (pending_runs w c s u a h I ltac:(lia) Eh) as [p [Hp Lp]]; [|lia|exists p; split; auto; lia].
    intros d A T k E1 E2 PT L K. destruct (Hs _ _ _ _ _ Eh E1 L K) as [H1 [H2 H3]].
    destruct (sv_hist _ _ _ I _ _ Eh) as [_ Hh]. destruct (Hh _ _ E1) as [PA [Pd _]].
    pose proof (stake_le_total _ _ _ _ _ _ _ I E2 K) as Le. rewrite <- stakes_user in K. pose proof (su_stakes _ _ (s_user_ok _ _ _ u I (proj1 P)) _ K) as [KP [KT _]].
    apply stake_share_runs; auto; lia. }
  simpl. unfold stake_withdraw_rewards. assert (Hc : fget c (w_code w) = Some KStake) by (eapply gd_cstake; eauto).
  rewrite (run_bind _ _ _ tt w) by (apply run_enter; auto).
  rewrite (run_bind _ _ _ s w) by (unfold get_stake; unfold stake_at in E; rewrite E; auto).
  rewrite (run_bind _ _ _ (w_now w) w) by apply run_now.
  destruct (pay_rewards_runs e c u s (w_now w) (s_user s u) (s_dists s) (pays s (w_now w) (s_user s u)) w G Hc (sv_nodup _ _ _ I) Nu) as [w1 [X1 _]].
  { intros a Ia. destruct (Pn a Ia) as [p [Hp Lp]]. destruct (Ht a Ia) as [Ta Ba]. unfold pays. rewrite Hp. simpl. split; auto. split; auto. split; auto. lia. }
  cbv zeta. rewrite (run_bind _ _ _ tt w1) by exact X1. eexists. reflexivity.
Qed.
Print Assumptions C41_early_stakers_can_withdraw.

(** ** C44 *)
Definition same_config (s s' : Stake) : Prop :=
  s_lp s' = s_lp s /\ s_minbond s' = s_minbond s /\ s_minreward s' = s_minreward s /\ s_manager s' = s_manager s /\
  s_owner s' = s_owner s /\ s_maxc s' = s_maxc s /\ s_admin s' = s_admin s.
(** the reward [a] recorded for time [d] *)
Definition recorded (s : Stake) (a d : Z) : option Z := match fget a (s_rh s) with Some h => fget d h | None => None end.

Theorem C44_only_manager_or_owner_distributes H w e k w' c s : reachable H w -> stake_at w c s -> exec e k w = Ok (tt, w') ->
  exists s', stake_at w' c s' /\ same_config s s' /\ NoDup (s_dists s') /\
   ((s_dists s' = s_dists s /\ (forall a d, recorded s' a d = recorded s a d) /\ (forall d, fget d (s_tsh s') = fget d (s_tsh s))) \/
    (exists u a, k = CFlow c u a /\ signs e u = true /\ (u = s_manager s \/ u = s_owner s) /\
       ~ In a (s_dists s) /\ s_dists s' = s_dists s ++ [a] /\ (forall x d, recorded s' x d = recorded s x d) /\ (forall d, fget d (s_tsh s') = fget d (s_tsh s))) \/
    (exists u amt a, k = CDistribute c u amt a /\ signs e u = true /\ (u = s_manager s \/ u = s_owner s) /\
       In a (s_dists s) /\ s_dists s' = s_dists s /\ 0 <= amt /\
       (forall x d, recorded s' x d = if (x =? a) && (d =? w_now w) then Some amt else recorded s x d) /\
       (forall d, fget d (s_tsh s') = if d =? w_now w then Some (s_total s) else fget d (s_tsh s)) /\
       bal w' a u = bal w a u - amt /\ bal w' a c = bal w a c + amt)).
Proof.
  intros R E X. pose proof (reach_good _ _ R) as G. pose proof (reach_stake _ _ R _ _ E) as I. pose proof (proj1 (reach_now _ _ R)) as P.
  pose proof (gd_cstake _ G _ _ E) as Hc.
  destruct (stake_step _ _ _ _ _ _ X G E (sv_nodup _ _ _ I)) as [s' [E' St]]. exists s'. split; auto.
  assert (I' : StakeInv w' c s'). { destruct (exec_framec _ _ _ _ X G) as [_ [_ [En _]]]. eapply StakeInv_step; eauto. lia. }
  destruct St.
  - match goal with V : SBond _ _ _ _ _ _ _ _ _ |- _ => destruct V end. subst s'. simpl. unfold same_config; simpl. split; [auto 10|]. split; [apply I|]. left. auto.
  - match goal with V : SUnbond _ _ _ _ _ _ _ _ _ _ _ |- _ => destruct V end. subst s'. simpl. unfold same_config; simpl. split; [auto 10|]. split; [apply I|]. left. auto.
  - match goal with V : SFlow _ _ _ _ _ _ _ _ _ |- _ => destruct V as [F1 F2 F3 F4 F5 F6 F7] end. split; [subst s'; unfold same_config; simpl; auto 10|]. split; [apply I'|].
    right. left. exists u, a. subst s'; simpl. rewrite authed_root in *. repeat (split; [assumption || reflexivity|]). split; [|auto].
    intros x d. unfold recorded; simpl. rewrite fget_set. destruct (Z.eqb_spec x a); [|reflexivity]. subst x. simpl.
    pose proof (sv_rh _ _ _ I a) as Q. unfold fmem in Q. destruct (fget a (s_rh s)) eqn:Ea; [|reflexivity]. exfalso. apply F5. apply Q. reflexivity.
  - match goal with V : SDist _ _ _ _ _ _ _ _ _ _ _ |- _ => destruct V as [D1 D2 D3 D4 D5 D6 D7 D8] end. split; [subst s'; unfold same_config; simpl; auto 10|]. split; [apply I'|].
    right. right. exists u, amt, a. clear I'.
    assert (Nu : u <> c) by apply (authed_ne _ None _ _ _ _ G Hc ltac:(discriminate) D3).
    subst s'; simpl. rewrite authed_root in *.
    pose proof (mv_pos _ _ _ _ _ _ D7) as Pa. rewrite (as_u128_pos amt) in * by exact Pa.
    pose proof (sv_total _ _ _ I) as PT. rewrite (as_u128_pos (s_total s)) in * by lia.
    repeat (split; [assumption || reflexivity|]). split; [|split; [|split]].
    + intros x d. unfold recorded; simpl. rewrite fget_set. destruct (Z.eqb_spec x a); simpl; [|reflexivity]. subst x. rewrite fget_set, D6. reflexivity.
    + intros d. apply fget_set.
    + rewrite (mv_bal _ _ _ _ _ _ D7). rewrite !Z.eqb_refl. destruct (Z.eqb_spec u c); [congruence|]. simpl. change (bal (set_stake w _) a u) with (bal w a u). lia.
    + rewrite (mv_bal _ _ _ _ _ _ D7). rewrite !Z.eqb_refl. destruct (Z.eqb_spec c u); [congruence|]. simpl. change (bal (set_stake w _) a c) with (bal w a c). lia.
  - match goal with V : SWith _ _ _ _ _ _ _ |- _ => destruct V end. subst s'. simpl. unfold same_config; simpl. split; [auto 10|]. split; [apply I|]. left. auto.
  - unfold same_config. split; [auto 10|]. split; [apply I|]. left. auto.
Qed.
Print Assumptions C44_only_manager_or_owner_distributes.
