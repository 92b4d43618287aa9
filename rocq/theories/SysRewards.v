(** What the calls of a stake_rewards contract do, and its invariant in every reachable ledger. *)
From Coq Require Import ZArith List Bool Lia.
From Coq Require Import ZifyBool.
From Verif Require Import Base FMap Decimal DecimalProofs Curve CurveProofs CurveCombine World Token TokenProofs Frame Stake Pool PoolProofs
  Stable StableProofs Rewards Vest Factory Router System SysFrame SysInv SysPool SysSupply SysStake.
Import ListNotations.
Open Scope Z_scope.

(** ** Amounts *)
Lemma weigh_ok t l : forall ws tw a b, weigh t l ws tw = Ok (a, b) -> 0 <= ws <= tw -> 0 <= a <= b.
Proof.
  induction l as [|k l IH]; intros ws tw a b H L.
  - simpl in H. inversion H; subst. auto.
  - unfold weigh in H; fold weigh in H. rstep H.
    match goal with K : weigh _ _ _ _ = Ok _ |- _ => apply IH in K; auto end.
    assert (0 <= (t - k_ts k) / SECONDS_PER_DAY) by (apply Z.div_pos; unfold SECONDS_PER_DAY; lia).
    destruct (Z.ltb_spec ((t - k_ts k) / SECONDS_PER_DAY) 60); nia.
Qed.
Lemma withdraw_power_ok t l m : withdraw_power t l = Ok m -> 0 <= m <= DEC.
Proof.
  unfold withdraw_power. intros H. rstep H. match goal with K : weigh _ _ _ _ = Ok ?p |- _ => destruct p as [a b] eqn:Ep; apply weigh_ok in K; [|lia] end.
  destruct (Z.ltb_spec 0 b); [|inversion R0; unfold dec_zero, DEC; lia]. rstep R0.
  match goal with K : dec_from_ratio _ _ = Ok _ |- _ => apply dec_from_ratio_pos in K; [|lia..]; destruct K as [K1 [_ K2]] end.
  split; auto. unfold DEC in *. nia.
Qed.
Lemma withdrawable_ok r t adj a : withdrawable r t adj = Ok a ->
  exists p, calc_power r t = Ok p /\ a = (r_spp r * p + fst adj) / 2^32 - snd adj /\ 0 <= a /\ 0 <= (r_spp r * p + fst adj) / 2^32.
Proof.
  unfold withdrawable. intros H. rstep H. match goal with K : calc_power r t = Ok ?p |- _ => exists p end. unfold shr_i128, SHARES_SHIFT in *. split; [auto|]. split; [auto|]. lia.
Qed.
Lemma reward_now_ok r t u b amt : reward_now r t u b = Ok amt ->
  exists a m, withdrawable r (b_total b) (r_adj_of r u) = Ok a /\ withdraw_power t (b_stakes b) = Ok m /\ 0 <= amt <= a /\ amt = a * m / DEC.
Proof.
  unfold reward_now. intros H. rstep H.
  match goal with K : withdrawable _ _ _ = Ok ?x |- _ => exists x; rename K into Ka; rename x into a end.
  match goal with K : withdraw_power _ _ = Ok ?x |- _ => exists x; rename K into Km; rename x into m end.
  split; auto. split; auto. pose proof (withdraw_power_ok _ _ _ Km) as M. pose proof (withdrawable_ok _ _ _ _ Ka) as [_ [_ [_ [A _]]]].
  match goal with K : i_mul_dec _ _ = Ok _ |- _ => apply i_mul_dec_ok in K end. subst amt.
  rewrite Z.quot_div_nonneg by (unfold DEC in *; nia). split; [|reflexivity].
  split; [apply Z.div_pos; unfold DEC in *; nia|]. apply Z.div_le_upper_bound; unfold DEC in *; nia.
Qed.
Lemma calc_power_ok r t p : calc_power r t = Ok p -> p = if t <? r_minbond r then 0 else Z.quot t 1000.
Proof.
  unfold calc_power. destruct (t <? r_minbond r); intros H; [inversion H; auto|]. rstep H.
  match goal with K : i_mul_dec _ _ = Ok _ |- _ => apply i_mul_dec_ok in K end. subst. unfold dec_one.
  rewrite Z.quot_mul by (unfold DEC; lia). reflexivity.
Qed.
Lemma calc_power_same r r' t : r_minbond r' = r_minbond r -> calc_power r' t = calc_power r t.
Proof. unfold calc_power. intros ->. reflexivity. Qed.

(** ** The calls *)
Definition same_dist (r r' : Rewards) : Prop :=
  r_spp r' = r_spp r /\ r_left r' = r_left r /\ r_dist r' = r_dist r /\ r_wdr r' = r_wdr r.
Definition same_conf (r r' : Rewards) : Prop :=
  r_staking r' = r_staking r /\ r_token r' = r_token r /\ r_maxc r' = r_maxc r /\ r_minreward r' = r_minreward r /\
  r_minbond r' = r_minbond r /\ r_admin r' = r_admin r.

(** the power of [u] changes by [d] *)
Definition shifted (u d : Z) (r r' : Rewards) : Prop :=
  (d = 0 /\ r' = r) \/
  r' = set_r_adj r u (fst (r_adj_of r u) - r_spp r * d, snd (r_adj_of r u)).
Lemma update_rewards_ok r u p0 p1 r' : update_rewards r u p0 p1 = Ok r' -> shifted u (p1 - p0) r r'.
Proof.
  unfold update_rewards. destruct (Z.eqb_spec p0 p1).
  - intros H; inversion H; subst. left. split; auto. lia.
  - intros H. rstep H. destruct (r_adj_of r u) as [corr wd] eqn:Ea. match goal with K : _ = Ok r' |- _ => rstep K end. right. simpl. rewrite Ea. reflexivity.
Qed.

Record RPay (c u : Addr) (b : Bonding) (w w' : World) (r r' : Rewards) (amt : Z) : Prop := {
  rp_now : reward_now r (w_now w) u b = Ok amt;
  rp_eff : (amt = 0 /\ w' = w /\ r' = r) \/
    (0 < amt /\ amt <= r_wdr r /\ Moved (r_token r) c u amt (set_rewards w (fset c r' (w_rewards w))) w' /\
     r' = set_r_adj (set_r_dist r (r_spp r) (r_left r) (r_dist r) (r_wdr r - amt)) u (fst (r_adj_of r u), snd (r_adj_of r u) + amt)) }.
Lemma rewards_withdraw_ok e cl c u b w x w' : rewards_withdraw e cl c u b w = Ok (x, w') ->
  exists r r' amt, fget c (w_code w) = Some KRewards /\ fget c (w_rewards w) = Some r /\ authed e cl (r_staking r) = true /\ RPay c u b w w' r r' amt.
Proof.
  unfold rewards_withdraw. intros H. rstep H. winv.
  match goal with K : fget c (w_rewards w) = Some ?q |- _ => exists q; rename q into r end.
  match goal with K : reward_now _ _ _ _ = Ok ?q |- _ => pose proof K as Hn; apply reward_now_ok in K; destruct K as [a [m [K1 [K2 [K3 _]]]]]; rename q into amt end.
  destruct (Z.eqb_spec amt 0).
  - match goal with K : mret tt _ = Ok _ |- _ => inversion K; subst end. exists r, 0. split; [auto|]. split; [auto|]. split; [auto|]. constructor; auto.
  - destruct (r_adj_of r u) as [corr wd] eqn:Ea. match goal with K : _ w = Ok (_, w') |- _ => rstep K end. winv. tinv. rewrite !as_u128_pos in * by lia.
    eexists _, amt. split; [auto|]. split; [auto|]. split; [auto|]. constructor; auto. right. split; [lia|]. split; [lia|].
    rewrite Ea. simpl. split; [eassumption|reflexivity].
Qed.
Lemma rpay_get c u b w w' r r' amt : RPay c u b w w' r r' amt -> fget c (w_rewards w) = Some r -> fget c (w_rewards w') = Some r'.
Proof.
  intros [_ [[_ [-> ->]]|[_ [_ [M _]]]]] E; auto. rewrite (mv_rest _ _ _ _ _ _ M). simpl. apply fget_set_same.
Qed.

Record RUnbond (c u : Addr) (b : Bonding) (x : Z) (w w' : World) (r r1 r' : Rewards) (amt p0 p1 : Z) : Prop := {
  rn_p0 : calc_power r (b_total b) = Ok p0;
  rn_p1 : calc_power r (b_total b - x) = Ok p1;
  rn_shift : shifted u (p1 - p0) r1 r';
  rn_paid : exists w1, RPay c u b w w1 r r1 amt /\ w' = set_rewards w1 (fset c r' (w_rewards w1)) }.
Lemma rewards_unbond_ok e cl c u b x w y w' : rewards_unbond e cl c u b x w = Ok (y, w') ->
  exists r r1 r' amt p0 p1, fget c (w_code w) = Some KRewards /\ fget c (w_rewards w) = Some r /\ authed e cl (r_staking r) = true /\
    authed e cl u = true /\ RUnbond c u b x w w' r r1 r' amt p0 p1.
Proof.
  unfold rewards_unbond. intros H. rstep H. winv.
  match goal with K : rewards_query _ _ _ _ = Ok _ |- _ => rename K into Q end. unfold rewards_query in Q. rstep Q. winv.
  match goal with K1 : fget c (w_rewards w) = Some ?q, K2 : fget c (w_rewards w) = Some ?q' |- _ =>
    first [constr_eq q q'; fail 1|assert (q = q') by congruence; subst q] end.
  match goal with K : fget c (w_rewards w) = Some ?q |- _ => rename q into r; rename K into Er end.
  match goal with K : (if ?q =? 0 then _ else _) ?wa = Ok (_, ?wb) |- _ => rename K into KK; rename q into amt; rename wb into w1 end.
  match goal with K : fget c (w_rewards w1) = Some ?q |- _ => rename q into r1; rename K into E1 end.
  assert (P : RPay c u b w w1 r r1 amt).
  { destruct (Z.eqb_spec amt 0).
    - inversion KK; subst. assert (r1 = r) by congruence. subst. constructor; auto.
    - apply rewards_withdraw_ok in KK. destruct KK as [r0 [r0' [amt0 [_ [E0 [_ P]]]]]]. assert (r0 = r) by congruence. subst r0.
      pose proof (rp_now _ _ _ _ _ _ _ _ P) as N0. assert (amt0 = amt) by congruence. subst amt0.
      pose proof (rpay_get _ _ _ _ _ _ _ _ P Er) as E2. assert (r0' = r1) by congruence. subst r0'. exact P. }
  assert (Mb : r_minbond r1 = r_minbond r). { destruct (rp_eff _ _ _ _ _ _ _ _ P) as [[_ [_ ->]]|[_ [_ [_ ->]]]]; reflexivity. }
  rewrite !(calc_power_same r r1) in * by auto.
  match goal with K : update_rewards r1 u ?p0 ?p1 = Ok ?q |- _ => exists r, r1, q, amt, p0, p1; apply update_rewards_ok in K end.
  split; [auto|]. split; [auto|]. split; [auto|]. split; [auto|]. constructor; auto. exists w1. split; auto.
Qed.

Record RUpd (c u d : Z) (w w' : World) (r r' : Rewards) : Prop := {
  ru_shift : shifted u d r r';
  ru_world : w' = set_rewards w (fset c r' (w_rewards w)) }.
Lemma rewards_add_user_ok e cl c u b w y w' : rewards_add_user e cl c u b w = Ok (y, w') ->
  exists r r' p, fget c (w_code w) = Some KRewards /\ fget c (w_rewards w) = Some r /\ authed e cl (r_staking r) = true /\
    calc_power r (b_total b) = Ok p /\ RUpd c u p w w' r r'.
Proof.
  unfold rewards_add_user. intros H. rstep H. winv.
  match goal with K : update_rewards ?r u _ ?p = Ok ?q |- _ => exists r, q, p; apply update_rewards_ok in K; rewrite Z.sub_0_r in K end.
  split; [auto|]. split; [auto|]. split; [auto|]. split; [auto|]. constructor; auto.
Qed.
Lemma rewards_bond_ok e cl c u b w y w' : rewards_bond e cl c u b w = Ok (y, w') ->
  exists r r' k p0 p1, fget c (w_code w) = Some KRewards /\ fget c (w_rewards w) = Some r /\ authed e cl (r_staking r) = true /\
    (exists l, b_stakes b = l ++ [k]) /\ calc_power r (b_total b) = Ok p0 /\ calc_power r (b_total b + k_amt k) = Ok p1 /\ RUpd c u (p1 - p0) w w' r r'.
Proof.
  unfold rewards_bond. intros H. rstep H. winv.
  match goal with K : match rev _ with _ => _ end = Ok ?k |- _ => rename K into Kl; rename k into k0 end.
  match goal with K : update_rewards ?r u ?p0 ?p1 = Ok ?q |- _ => exists r, q, k0, p0, p1; apply update_rewards_ok in K end.
  split; [auto|]. split; [auto|]. split; [auto|]. split; [|split; [auto|split; [auto|constructor; auto]]].
  destruct (rev (b_stakes b)) as [|k l] eqn:Er; [discriminate|]. inversion Kl; subst k0. exists (rev l).
  rewrite <- (rev_involutive (b_stakes b)), Er. reflexivity.
Qed.

Record RDist (c tot : Z) (w w' : World) (r r' : Rewards) (P amt lk : Z) : Prop := {
  rd_power : calc_power r tot = Ok P;
  rd_pos : 0 < P;
  rd_lock : cvalue (r_curve r) (w_now w) = Ok lk;
  rd_amt : amt = bal w (r_token r) c - r_wdr r - lk;
  rd_amt_pos : 0 < amt;
  rd_unlocked : lk <= bal w (r_token r) c - r_wdr r;
  rd_world : w' = set_rewards w (fset c r' (w_rewards w));
  rd_after : let pts := shl_u128 amt SHARES_SHIFT + r_left r in
    r' = set_r_dist r (r_spp r + pts / P) (as_u64 (pts mod P)) (r_dist r + amt) (r_wdr r + amt) }.
Lemma rewards_distribute_ok e cl c tot w y w' : rewards_distribute e cl c tot w = Ok (y, w') ->
  exists r, fget c (w_code w) = Some KRewards /\ fget c (w_rewards w) = Some r /\ authed e cl (r_staking r) = true /\
    (w' = w \/ exists r' P amt lk, RDist c tot w w' r r' P amt lk).
Proof.
  unfold rewards_distribute. intros H. rstep H. winv.
  match goal with K : fget c (w_rewards w) = Some ?q |- _ => exists q; rename q into r end. split; [auto|]. split; [auto|]. split; [auto|].
  match goal with K : (if ?q =? 0 then _ else _) w = _ |- _ => rename K into KK; rename q into P end. destruct (Z.eqb_spec P 0); [inversion KK; auto|].
  rstep KK. winv.
  match goal with K : (if ?q =? 0 then _ else _) w = _ |- _ => rename K into KL; destruct (Z.eqb_spec q 0); [inversion KL; auto|] end.
  rstep KL. winv. right. eexists _, P, _, _. econstructor; eauto; try lia.
Qed.

Record RFund (c st du amt : Z) (w w' : World) (r r' : Rewards) : Prop := {
  rf_start : w_now w <= st;
  rf_min : r_minreward r <= amt;
  rf_pos : 0 <= amt;
  rf_end : 0 <= w_now w + du <= U64_MAX;
  rf_paid : exists w1, Moved (r_token r) (r_admin r) c amt w w1 /\ w' = set_rewards w1 (fset c r' (w_rewards w));
  rf_after : exists k, r' = set_r_curve r k /\
    ((exists x, cend (r_curve r) = Some x /\ x < w_now w /\ k = SatLin st amt (w_now w + du) 0) \/
     ((forall x, cend (r_curve r) = Some x -> w_now w <= x) /\ combine (r_curve r) (SatLin st amt (w_now w + du) 0) = Ok k /\ csize k <= r_maxc r)) }.
Lemma rewards_fund_ok e cl c st du amt w y w' : rewards_fund e cl c st du amt w = Ok (y, w') ->
  exists r r', fget c (w_code w) = Some KRewards /\ fget c (w_rewards w) = Some r /\ authed e cl (r_staking r) = true /\
    authed e cl (r_admin r) = true /\ RFund c st du amt w w' r r'.
Proof.
  unfold rewards_fund. intros H. rstep H. winv. tinv.
  match goal with K : fget c (w_rewards w) = Some ?q |- _ => exists q; rename q into r end.
  match goal with K : _ ?q = Ok (y, w') |- _ => rename K into KK; rename q into w1 end.
  destruct (crange _) as [mn mx]. rstep KK. winv.
  match goal with K : match cend _ with _ => _ end = Ok ?q |- _ => rename K into Kc; rename q into k end.
  match goal with K : Moved _ _ _ _ _ _ |- _ => rename K into M end.
  exists (set_r_curve r k). split; [auto|]. split; [auto|]. split; [auto|]. split; [auto|]. constructor; auto; try lia.
  - exists w1. split; auto. rewrite (mv_rest _ _ _ _ _ _ M). reflexivity.
  - exists k. split; auto. unfold validate_complexity in Kc.
    assert (CC : forall z, (let? k := combine (r_curve r) z in match (if csize k <=? r_maxc r then None else Some TooComplex) with None => Ok k | Some _ => Err (EContract 12) end) = Ok k ->
        combine (r_curve r) z = Ok k /\ csize k <= r_maxc r).
    { intros z Hz. destruct (combine (r_curve r) z) as [k0|]; [|discriminate]. unfold rbind in Hz. destruct (Z.leb_spec (csize k0) (r_maxc r)); [|discriminate].
      inversion Hz; subst. auto. }
    destruct (cend (r_curve r)) as [x0|].
    + destruct (Z.ltb_spec x0 (w_now w)).
      * left. exists x0. inversion Kc; subst. auto.
      * right. split; [intros x' Hx; inversion Hx; subst; auto|]. apply CC; auto.
    + right. split; [intros x' Hx; discriminate|]. apply CC; auto.
Qed.

Lemma rewards_initialize_ok c a s t m mr mb w y w' : rewards_initialize c a s t m mr mb w = Ok (y, w') ->
  fget c (w_code w) = Some KRewards /\ fget c (w_rewards w) = None /\
  w' = set_rewards w (fset c (mkRewards s t m mr mb a 1 0 0 0 (Constant 0) fempty) (w_rewards w)).
Proof.
  unfold rewards_initialize. intros H. rstep H. winv. unfold fmem in *. 
  match goal with K : negb _ = true |- _ => destruct (fget c (w_rewards _)) eqn:E; [discriminate|] end. auto.
Qed.

(** ** Curve values are never negative *)
Definition cpos (k : curve) : Prop :=
  match k with Constant y => 0 <= y | SatLin _ a _ b => 0 <= a /\ 0 <= b | PieceLin s => Forall (fun p : Curve.step => 0 <= snd p) s end.
Lemma interpolate_pos a b d e x v : interpolate a b d e x = Ok v -> 0 <= v.
Proof. unfold interpolate. destruct (b <? e); intros H; rstep H; lia. Qed.
Lemma pl_loop_pos l : forall p x v, 0 <= snd p -> Forall (fun q : Curve.step => 0 <= snd q) l -> pl_loop p l x = Ok v -> 0 <= v.
Proof.
  induction l as [|q l IH]; simpl; intros p x v P F H; [inversion H; subst; auto|]. inversion F; subst.
  destruct (x <? fst q); [eapply interpolate_pos; eauto|eapply IH; eauto].
Qed.
Lemma last_pos (l : list Curve.step) d : 0 <= snd d -> Forall (fun q : Curve.step => 0 <= snd q) l -> 0 <= snd (last l d).
Proof. intros P F. induction F as [|q l Hq F IH]; simpl; auto. destruct l; auto. Qed.
Lemma pl_value_pos l x v : Forall (fun q : Curve.step => 0 <= snd q) l -> pl_value l x = Ok v -> 0 <= v.
Proof.
  unfold pl_value. destruct l as [|f l]; [discriminate|]. intros F H. inversion F; subst.
  destruct (x <=? fst f); [inversion H; subst; auto|]. destruct (fst (last (f :: l) f) <=? x); [|eapply pl_loop_pos; eauto].
  assert (E : v = snd (last (f :: l) f)) by congruence. rewrite E. apply last_pos; auto.
Qed.
Lemma cvalue_pos k x v : cpos k -> cvalue k x = Ok v -> 0 <= v.
Proof.
  destruct k; simpl; intros P H.
  - inversion H; subst; auto.
  - unfold sl_value in H. destruct (_ <? _); [inversion H; subst; lia|]. destruct (_ <? _); [inversion H; subst; lia|]. eapply interpolate_pos; eauto.
  - eapply pl_value_pos; eauto.
Qed.
Lemma shift_pos k l : forall l', shift_steps k l = Ok l' -> Forall (fun q : Curve.step => 0 <= snd q) l'.
Proof. induction l as [|[t v] l IH]; simpl; intros l' H; [inversion H; constructor|]. rstep H. constructor; simpl; [lia|auto]. Qed.
Lemma combine_const_pos c k c' : combine_const c k = Ok c' -> cpos c'.
Proof.
  destruct c; simpl; intros H; rstep H; simpl; try lia. eapply shift_pos; eauto.
Qed.
Lemma combine_at_pos p q ts : forall r, combine_at p q ts = Ok r -> Forall (fun q : Curve.step => 0 <= snd q) r.
Proof. induction ts as [|t ts IH]; simpl; intros r H; [inversion H; constructor|]. rstep H. constructor; simpl; [lia|auto]. Qed.
Lemma combine_pos a b k : combine a b = Ok k -> cpos k.
Proof.
  destruct a, b; intros H; unfold combine in H; first [exact (combine_const_pos _ _ _ H) |
    rstep H; simpl; eapply combine_at_pos; unfold pl_combine in *; eassumption].
Qed.

(** ** The invariant *)
Record RewardsInv (w : World) (c : Addr) (r : Rewards) : Prop := {
  rv_sorted : fsorted (r_adj r);
  rv_wdr : 0 <= r_wdr r <= bal w (r_token r) c;
  rv_dist : r_wdr r <= r_dist r;
  rv_paid : fsum snd (r_adj r) = r_dist r - r_wdr r;
  rv_each : forall u a, In (u, a) (r_adj r) -> 0 <= snd a;
  rv_spp : 1 <= r_spp r;
  rv_left : 0 <= r_left r;
  rv_curve : cpos (r_curve r) }.
Definition new_rewards (a s t m mr mb : Z) : Rewards := mkRewards s t m mr mb a 1 0 0 0 (Constant 0) fempty.

Lemma RewardsInv_same w w' c r : RewardsInv w c r -> bal w (r_token r) c <= bal w' (r_token r) c -> RewardsInv w' c r.
Proof. intros [A B C D E F G K] L. constructor; auto. lia. Qed.
Lemma RewardsInv_new w c a s t m mr mb : Good w -> RewardsInv w c (new_rewards a s t m mr mb).
Proof. intros G. pose proof (good_bal w t c G). constructor; simpl; try lia; try exact I. Qed.
Lemma adj_in r u a x y : In (x, y) (fset u a (r_adj r)) -> fsorted (r_adj r) -> (x = u /\ y = a) \/ In (x, y) (r_adj r).
Proof. intros I Sd. apply fset_in in I; auto. destruct I as [I|I]; [inversion I; auto|auto]. Qed.
Lemma adj_each w c r u : RewardsInv w c r -> 0 <= snd (r_adj_of r u).
Proof.
  intros I. unfold r_adj_of, fgetd. destruct (fget u (r_adj r)) eqn:E; simpl; [|lia]. apply fget_in in E. apply (rv_each _ _ _ I _ _ E).
Qed.
Lemma adj_sum r u a : fsum snd (fset u a (r_adj r)) = fsum snd (r_adj r) - snd (r_adj_of r u) + snd a.
Proof. rewrite fsum_set. unfold r_adj_of, fgetd. destruct (fget u (r_adj r)); simpl; lia. Qed.

Lemma shifted_inv w w' c u d r r' : shifted u d r r' -> (forall t, bal w t c <= bal w' t c) -> RewardsInv w c r -> RewardsInv w' c r'.
Proof.
  intros [[_ ->]|E] L I; [eapply RewardsInv_same; eauto|]. pose proof (adj_each _ _ _ u I) as P. destruct I as [A B C D F G K Cp]. subst r'. constructor; simpl; auto.
  - apply fsorted_set; auto.
  - specialize (L (r_token r)). lia.
  - rewrite adj_sum. simpl. lia.
  - intros x a Ia. apply adj_in in Ia; auto. destruct Ia as [[-> ->]|Ia]; simpl; eauto.
Qed.
Lemma rpay_inv c u b w w' r r' amt : RPay c u b w w' r r' amt -> RewardsInv w c r -> RewardsInv w' c r'.
Proof.
  intros [_ [[_ [-> ->]]|[Pa [Lw [M E]]]]] I; auto. pose proof (adj_each _ _ _ u I) as P. destruct I as [A B C D F G K Cp].
  assert (Bl : bal w' (r_token r) c >= bal w (r_token r) c - amt).
  { rewrite (mv_bal _ _ _ _ _ _ M). change (bal (set_rewards w _) (r_token r) c) with (bal w (r_token r) c). rewrite !Z.eqb_refl.
    unfold ind. simpl. destruct (c =? u); lia. }
  subst r'. constructor; simpl; auto; try lia.
  - apply fsorted_set; auto.
  - pose proof (adj_sum r u (fst (r_adj_of r u), snd (r_adj_of r u) + amt)) as Q. simpl in Q. lia.
  - intros x a Ia. apply adj_in in Ia; auto. destruct Ia as [[-> ->]|Ia]; simpl; eauto. lia.
Qed.
Lemma rdist_inv c tot w w' r r' P amt lk : RDist c tot w w' r r' P amt lk -> RewardsInv w c r -> RewardsInv w' c r'.
Proof.
  intros V I. destruct V as [V1 V2 V3 V4 V5 V6 V7 V8]. cbv zeta in V8. destruct I as [A B C D F G K Cp].
  pose proof (cvalue_pos _ _ _ Cp V3) as Pl.
  assert (Eb : bal w' (r_token r) c = bal w (r_token r) c) by (rewrite V7; reflexivity).
  assert (0 <= shl_u128 amt SHARES_SHIFT) by (unfold shl_u128; apply Z.mod_pos_bound; unfold U128_MAX; lia).
  subst r'. constructor; simpl; auto; try lia.
  - assert (0 <= (shl_u128 amt SHARES_SHIFT + r_left r) / P) by (apply Z.div_pos; lia). lia.
  - unfold as_u64. apply Z.mod_pos_bound. unfold U64_MAX. lia.
Qed.

Lemma rfund_inv c st du amt w w' r r' : RFund c st du amt w w' r r' -> r_admin r <> c -> RewardsInv w c r -> RewardsInv w' c r'.
Proof.
  intros [F1 F2 F3 F4 [w1 [M Ew]] [k [Er K]]] N I. destruct I as [A B C D F G L Cp].
  assert (Eb : bal w' (r_token r) c = bal w (r_token r) c + amt).
  { subst w'. change (bal w1 (r_token r) c = bal w (r_token r) c + amt). rewrite (mv_bal _ _ _ _ _ _ M), !Z.eqb_refl.
    unfold ind. destruct (Z.eqb_spec c (r_admin r)); [congruence|]. simpl. lia. }
  subst r'. constructor; simpl; auto; try lia.
  destruct K as [[x [_ [_ ->]]]|[_ [K _]]]; [simpl; lia|eapply combine_pos; eauto].
Qed.

(** ** What one transaction does to the record of one rewards contract *)
Inductive RStep (e : Env) (k : Call) (w w' : World) (c : Addr) (r : Rewards) : Rewards -> Prop :=
| rs_add u b p r' : k = CRewAddUser c u b -> authed e None (r_staking r) = true -> calc_power r (b_total b) = Ok p -> RUpd c u p w w' r r' -> RStep e k w w' c r r'
| rs_bond u b l x p0 p1 r' : k = CRewBond c u b -> authed e None (r_staking r) = true -> b_stakes b = l ++ [x] -> calc_power r (b_total b) = Ok p0 ->
    calc_power r (b_total b + k_amt x) = Ok p1 -> RUpd c u (p1 - p0) w w' r r' -> RStep e k w w' c r r'
| rs_unbond u b x r1 r' amt p0 p1 : k = CRewUnbond c u b x -> authed e None (r_staking r) = true -> authed e None u = true ->
    RUnbond c u b x w w' r r1 r' amt p0 p1 -> RStep e k w w' c r r'
| rs_idle tot : k = CRewDistribute c tot -> w' = w -> RStep e k w w' c r r
| rs_dist tot r' P amt lk : k = CRewDistribute c tot -> authed e None (r_staking r) = true -> RDist c tot w w' r r' P amt lk -> RStep e k w w' c r r'
| rs_with u b r' amt : k = CRewWithdraw c u b -> authed e None (r_staking r) = true -> RPay c u b w w' r r' amt -> RStep e k w w' c r r'
| rs_fund st du amt r' : k = CRewFund c st du amt -> authed e None (r_staking r) = true -> authed e None (r_admin r) = true -> r_admin r <> c -> RFund c st du amt w w' r r' -> RStep e k w w' c r r'
| rs_same : (match k with
      | CRewAddUser c' _ _ | CRewBond c' _ _ | CRewUnbond c' _ _ _ | CRewDistribute c' _ | CRewWithdraw c' _ _ | CRewFund c' _ _ _ => c' <> c
      | _ => True end) -> (forall t, bal w t c <= bal w' t c) -> RStep e k w w' c r r.

Theorem rewards_step e k w w' c r : exec e k w = Ok (tt, w') -> Good w -> fget c (w_rewards w) = Some r ->
  exists r', fget c (w_rewards w') = Some r' /\ RStep e k w w' c r r'.
Proof.
  intros H G Ev.
  destruct (exec_framec _ _ _ _ H G) as [G' [X' [_ [_ U]]]].
  pose proof (gd_crewards _ G _ _ Ev) as Hc.
  destruct (exists_dec_acts k c KRewards) as [[T|[T [E|E]]]|N]; [|discriminate..|].
  - pose proof (exec_tkind _ _ _ _ _ H T) as TK. rewrite Hc in TK.
    destruct k; simpl in T, TK; inversion T; try discriminate TK; subst; simpl in H.
    + apply rewards_initialize_ok in H. destruct H as [_ [H _]]. congruence.
    + apply rewards_add_user_ok in H. destruct H as [r0 [r' [p [_ [E0 [Au [Hp V]]]]]]]. rewrite Ev in E0. inversion E0; subst r0.
      exists r'. split; [|eapply rs_add; eauto]. rewrite (ru_world _ _ _ _ _ _ _ V). simpl. apply fget_set_same.
    + apply rewards_bond_ok in H. destruct H as [r0 [r' [x [p0 [p1 [_ [E0 [Au [[l El] [H0 [H1 V]]]]]]]]]]]. rewrite Ev in E0. inversion E0; subst r0.
      exists r'. split; [|eapply rs_bond; eauto]. rewrite (ru_world _ _ _ _ _ _ _ V). simpl. apply fget_set_same.
    + apply rewards_unbond_ok in H. destruct H as [r0 [r1 [r' [amt [p0 [p1 [_ [E0 [Au [Au2 V]]]]]]]]]]. rewrite Ev in E0. inversion E0; subst r0.
      exists r'. split; [|eapply rs_unbond; eauto]. destruct (rn_paid _ _ _ _ _ _ _ _ _ _ _ _ V) as [w1 [_ ->]]. simpl. apply fget_set_same.
    + apply rewards_distribute_ok in H. destruct H as [r0 [_ [E0 [Au H]]]]. rewrite Ev in E0. inversion E0; subst r0.
      destruct H as [->|[r' [P [amt [lk V]]]]]; [exists r; split; [auto|eapply rs_idle; eauto]|].
      exists r'. split; [|eapply rs_dist; eauto]. rewrite (rd_world _ _ _ _ _ _ _ _ _ V). simpl. apply fget_set_same.
    + apply rewards_withdraw_ok in H. destruct H as [r0 [r' [amt [_ [E0 [Au V]]]]]]. rewrite Ev in E0. inversion E0; subst r0.
      exists r'. split; [|eapply rs_with; eauto]. eapply rpay_get; eauto.
    + apply rewards_fund_ok in H. destruct H as [r0 [r' [_ [E0 [Au [Au2 V]]]]]]. rewrite Ev in E0. inversion E0; subst r0.
      exists r'. split; [|eapply rs_fund; eauto].
      * destruct (rf_paid _ _ _ _ _ _ _ _ V) as [w1 [_ ->]]. simpl. apply fget_set_same.
      * exact (authed_ne _ None _ _ _ _ G Hc ltac:(discriminate) Au2).
    + apply rewards_update_ok in H. subst w'. exists r. split; [exact Ev|]. apply rs_same; [exact I|]. intros t. unfold bal; simpl; lia.
  - specialize (U _ _ Hc N). rewrite (ut_rewards _ _ _ U). exists r. split; auto. apply rs_same; [|apply (ut_bal _ _ _ U)].
    destruct k; try exact I; intros Eq; apply N; left; simpl; f_equal; exact Eq.
Qed.

Lemma RewardsInv_step e k w w' c r r' : RStep e k w w' c r r' -> RewardsInv w c r -> RewardsInv w' c r'.
Proof.
  intros St I. destruct St; subst.
  - match goal with V : RUpd _ _ _ _ _ _ _ |- _ => destruct V as [V1 V2] end. eapply shifted_inv; eauto. subst w'. intros t. apply Z.le_refl.
  - match goal with V : RUpd _ _ _ _ _ _ _ |- _ => destruct V as [V1 V2] end. eapply shifted_inv; eauto. subst w'. intros t. apply Z.le_refl.
  - match goal with V : RUnbond _ _ _ _ _ _ _ _ _ _ _ _ |- _ => destruct V as [_ _ V3 [w1 [V4 V5]]] end.
    pose proof (rpay_inv _ _ _ _ _ _ _ _ V4 I) as I1. eapply shifted_inv; eauto. subst w'. intros t. apply Z.le_refl.
  - auto.
  - eapply rdist_inv; eauto.
  - eapply rpay_inv; eauto.
  - eapply rfund_inv; eauto.
  - eapply RewardsInv_same; eauto.
Qed.

(** a record that appears in a transaction is fresh *)
Theorem rewards_fresh e k w w' c r' : exec e k w = Ok (tt, w') -> Good w -> fget c (w_rewards w) = None -> fget c (w_rewards w') = Some r' ->
  exists a s t m mr mb, r' = new_rewards a s t m mr mb /\ k = CRewInit c a s t m mr mb.
Proof.
  intros H G En Hx.
  destruct (exec_framec _ _ _ _ H G) as [G' [X' [_ [_ U]]]].
  destruct (fget c (w_code w)) as [kd|] eqn:Ec.
  - assert (kd = KRewards).
    { pose proof (ex_code _ _ X' _ _ Ec). pose proof (gd_crewards _ G' _ _ Hx). congruence. }
    subst kd.
    destruct (exists_dec_acts k c KRewards) as [[T|[T [E|E]]]|N]; [|discriminate..|].
    + pose proof (exec_tkind _ _ _ _ _ H T) as TK. rewrite Ec in TK.
      destruct k; simpl in T, TK; inversion T; try discriminate TK; subst; simpl in H.
      { apply rewards_initialize_ok in H. destruct H as [_ [_ ->]]. simpl in Hx. rewrite fget_set_same in Hx. inversion Hx; subst.
        do 6 eexists. split; reflexivity. }
      all: exfalso; match type of H with ?m = _ => unfold rewards_add_user, rewards_bond, rewards_unbond, rewards_distribute, rewards_withdraw, rewards_fund, rewards_update in H end;
        rstep H; winv; congruence.
    + specialize (U _ _ Ec N). rewrite (ut_rewards _ _ _ U) in Hx. congruence.
  - destruct (deploys k) eqn:D.
    + exfalso. destruct k; try discriminate D; deploy_cases H.
      all: try (subst w'; simpl in Hx; rewrite ?fget_set in Hx; congruence).
      match goal with Q : match ty with Xyk => _ | StableT => _ end |- _ => rename Q into Hm end.
      subst. rename Hm into H. simpl in Hx.
      destruct ty; simpl in H.
      * apply pool_initialize_ok in H. destruct H as [_ [_ [_ [_ [NP H]]]]]. cbv zeta in H. subst. simpl in Hx. congruence.
      * destruct H as [a [_ H]]. apply stable_initialize_ok in H.
        destruct H as [? [? [? [? [? [? [? [? [? [? [? [? H]]]]]]]]]]]]. cbv zeta in H. subst. simpl in Hx. congruence.
    + pose proof (exec_samecode e k D _ _ _ H) as Sc. unfold SameCode in Sc. pose proof (gd_crewards _ G' _ _ Hx). congruence.
Qed.

Definition AllRewards (w : World) : Prop := forall c r, fget c (w_rewards w) = Some r -> RewardsInv w c r.
Lemma rewards_all_step e k w w' : exec e k w = Ok (tt, w') -> Good w -> AllRewards w -> AllRewards w'.
Proof.
  intros H G A c x Hx. destruct (fget c (w_rewards w)) as [s|] eqn:E.
  - destruct (rewards_step _ _ _ _ _ _ H G E) as [s2 [E2 St]]. rewrite Hx in E2. inversion E2; subst s2. eapply RewardsInv_step; eauto.
  - destruct (exec_framec _ _ _ _ H G) as [G' _].
    destruct (rewards_fresh _ _ _ _ _ _ H G E Hx) as [a [lp [mb [mr [m [o [-> _]]]]]]]. apply RewardsInv_new; auto.
Qed.
Theorem reach_rewards H w : reachable H w -> AllRewards w.
Proof.
  apply reach_inv.
  - intros c x Hx. discriminate.
  - intros e k w1 w2 _ [G N _] X. eapply rewards_all_step; eauto.
  - intros w0 n sq _ A c x Hx. apply A in Hx. eapply RewardsInv_same; [exact Hx|apply Z.le_refl].
Qed.
