(** Effects and invariant of the constant-product pool. *)
From Coq Require Import ZArith List Bool Lia.
From Coq Require Import ZifyBool.
From Verif Require Import Base FMap Decimal DecimalProofs World Token TokenProofs Frame Stake Pool.
Import ListNotations.
Open Scope Z_scope.

(** ** Token effects leave the contracts' storage alone *)
Lemma mv_pool t f to a w w' : Moved t f to a w w' -> w_pool w' = w_pool w.
Proof. intros M. rewrite (mv_rest _ _ _ _ _ _ M). reflexivity. Qed.
Lemma mt_pool t to a w w' : Minted t to a w w' -> w_pool w' = w_pool w.
Proof. intros M. rewrite (mt_rest _ _ _ _ _ M). reflexivity. Qed.
Lemma bn_pool t f a w w' : Burned t f a w w' -> w_pool w' = w_pool w.
Proof. intros M. rewrite (bn_rest _ _ _ _ _ M). reflexivity. Qed.

(** [winv2]: like [winv], with the token calls turned into their effects. *)
Ltac tinv :=
  repeat match goal with
  | R : tok_transfer _ _ _ _ _ _ _ = Ok (_, _) |- _ => apply tok_transfer_moved in R; destruct R as [? R]
  | R : tok_mint _ _ _ _ _ _ = Ok (_, _) |- _ => apply tok_mint_minted in R; destruct R as [? R]
  | R : tok_burn _ _ _ _ _ _ = Ok (_, _) |- _ => apply tok_burn_burned in R; destruct R as [? R]
  end.

(** ** Frames *)
Lemma frame_stake_initialize e k a l mb mr m o mc :
  safe (Frame e (Some k) KStake) (stake_initialize k a l mb mr m o mc).
Proof. unfold stake_initialize. frame_tac. Qed.

Lemma frame_stake_bond e c self sender n : safe (Frame e (Some self) KStake) (stake_bond e c self sender n).
Proof. unfold stake_bond. frame_tac. Qed.
Lemma frame_stake_unbond e c self sender n t : safe (Frame e (Some self) KStake) (stake_unbond e c self sender n t).
Proof. unfold stake_unbond. frame_tac. Qed.
Lemma frame_stake_create_flow e c self sender a : safe (Frame e (Some self) KStake) (stake_create_flow e c self sender a).
Proof. unfold stake_create_flow. frame_tac. Qed.
Lemma frame_stake_distribute e c self sender n a : safe (Frame e (Some self) KStake) (stake_distribute e c self sender n a).
Proof. unfold stake_distribute. frame_tac. Qed.
Lemma frame_pay_rewards e self sender s t b l : safe (Frame e (Some self) KStake) (pay_rewards e self sender s t b l).
Proof. induction l; simpl; frame_tac. Qed.
Global Hint Resolve frame_pay_rewards : frame.
Lemma frame_stake_withdraw_rewards e self sender : safe (Frame e (Some self) KStake) (stake_withdraw_rewards e self sender).
Proof. unfold stake_withdraw_rewards. frame_tac. Qed.

Lemma frame_deploy_share e self K s ta tb d : safe (Frame e self K) (deploy_share e s ta tb d).
Proof. unfold deploy_share. frame_tac. Qed.

Lemma frame_deploy_stake_of e self K s a sh mb mr m o mc :
  safe (Frame e self K) (deploy_stake_of e s a sh mb mr m o mc).
Proof.
  unfold deploy_stake_of. apply frame_deploy_then.
  apply frame_bind; [apply frame_stake_initialize|intro; frame_tac].
Qed.
Global Hint Resolve frame_deploy_share frame_deploy_stake_of : frame.

Lemma frame_pool_initialize e self i f d s m : safe (Frame e (Some self) KPool) (pool_initialize e self i f d s m).
Proof. unfold pool_initialize. frame_tac. Qed.
Lemma frame_mint_shares e self to a : safe (Frame e (Some self) KPool) (mint_shares e self to a).
Proof. unfold mint_shares. frame_tac. Qed.
Lemma frame_burn_shares e self a : safe (Frame e (Some self) KPool) (burn_shares e self a).
Proof. unfold burn_shares. frame_tac. Qed.
Global Hint Resolve frame_mint_shares frame_burn_shares : frame.
Lemma frame_new_share_total e self a b x y p : safe (Frame e (Some self) KPool) (new_share_total e self a b x y p).
Proof. unfold new_share_total. frame_tac. Qed.
Global Hint Resolve frame_new_share_total : frame.
Lemma frame_pool_provide e c self sender da ma db mb cs dl :
  safe (Frame e (Some self) KPool) (pool_provide e c self sender da ma db mb cs dl).
Proof. unfold pool_provide. frame_tac. Qed.
Lemma frame_do_swap e self sender o a mi ms mf : safe (Frame e (Some self) KPool) (do_swap e self sender o a mi ms mf).
Proof. unfold do_swap. frame_tac. Qed.
Global Hint Resolve frame_do_swap : frame.
Lemma frame_pool_swap e c self sender o a mi ms dl mf :
  safe (Frame e (Some self) KPool) (pool_swap e c self sender o a mi ms dl mf).
Proof. unfold pool_swap. frame_tac. Qed.
Lemma frame_pool_withdraw e c self sender s a b dl :
  safe (Frame e (Some self) KPool) (pool_withdraw e c self sender s a b dl).
Proof. unfold pool_withdraw. frame_tac. Qed.
Lemma frame_pool_update_config e c self a1 a2 a3 a4 a5 a6 :
  safe (Frame e (Some self) KPool) (pool_update_config e c self a1 a2 a3 a4 a5 a6).
Proof. unfold pool_update_config. frame_tac. Qed.
Lemma frame_pool_update e c self h : safe (Frame e (Some self) KPool) (pool_update e c self h).
Proof. unfold pool_update. frame_tac. Qed.
Lemma frame_pool_upgrade e c self h d : safe (Frame e (Some self) KPool) (pool_upgrade e c self h d).
Proof. unfold pool_upgrade. frame_tac. Qed.

(** ** Arithmetic of a swap *)
(** What leaves the pool for [dx] when the reserves are [x] and [y]. *)
Definition gross_out (x y dx : Z) : Z := y - (x * y) / (x + dx).

Record SwapNums (x y dx rate : Z) (r : Computed) : Prop := {
  sn_x : 0 < x; sn_y : 0 <= y; sn_dx : 0 <= dx; sn_rate : 0 <= rate;
  sn_sum : cs_ret r + cs_comm r = gross_out x y dx;
  sn_comm : cs_comm r = (gross_out x y dx * rate) / DEC;
  sn_ret : 0 <= cs_ret r <= I128_MAX;
  sn_comm_pos : 0 <= cs_comm r <= I128_MAX;
  sn_ref : cs_ref r = 0;
  sn_spread : cs_spread r = (dx * y) / x - gross_out x y dx;
  sn_spread_pos : 0 <= cs_spread r <= I128_MAX }.

Lemma w2i_ok x r : w2i x = Ok r -> r = x /\ x <= I128_MAX.
Proof. unfold w2i. destruct (Z.leb_spec x I128_MAX); intros E; inversion E; subst; auto. Qed.

Lemma compute_swap_ok x y dx rate r : compute_swap x y dx rate 0 = Ok r -> SwapNums x y dx rate r.
Proof.
  unfold compute_swap. intros H. rstep H.
  repeat match goal with R : w2i _ = Ok _ |- _ => apply w2i_ok in R; destruct R as [? R]; subst end.
  change (dec_bps 0) with 0 in *. rewrite Z.mul_0_r in *. change (0 / DEC) with 0 in *. rewrite Z.sub_0_r in *.
  assert (DEC > 0) by (unfold DEC; lia).
  constructor; cbn [cs_ret cs_comm cs_ref cs_spread]; unfold gross_out in *; try lia; try reflexivity.
  assert (0 <= (y - x * y / (x + dx)) * rate / DEC) by (apply Z.div_pos; nia). lia.
Qed.

Lemma gross_bounds x y dx : 0 < x -> 0 <= y -> 0 <= dx ->
  0 <= gross_out x y dx <= y /\
  (x + dx) * (y - gross_out x y dx) <= x * y < (x + dx) * (y - gross_out x y dx) + (x + dx).
Proof.
  intros Hx Hy Hd. unfold gross_out.
  pose proof (div_floor (x * y) (x + dx) ltac:(lia)) as [A B].
  assert (0 <= x * y / (x + dx)) by (apply Z.div_pos; nia).
  assert (x * y / (x + dx) <= y) by (apply Z.div_le_upper_bound; nia).
  split; [lia|]. split; nia.
Qed.

(** ** Effect of a swap *)
Definition buy_of (p : Pool) (offer : Addr) : Addr := if offer =? p_ta p then p_tb p else p_ta p.
Definition res_of (p : Pool) (offer : Addr) : Z := if offer =? p_ta p then p_ra p else p_rb p.
Definition res_other (p : Pool) (offer : Addr) : Z := if offer =? p_ta p then p_rb p else p_ra p.
Definition set_res_for (p : Pool) (offer : Addr) (s b : Z) : Pool :=
  if offer =? p_ta p then set_p_res p s b else set_p_res p b s.

Record SwapEff (e : Env) (self sender offer amt : Z) (mi ms mf : option Z) (w w' : World) (ret : Z)
    (p : Pool) (r : Computed) (w1 w2 w3 : World) : Prop := {
  se_pool : fget self (w_pool w) = Some p;
  se_offer : offer = p_ta p \/ offer = p_tb p;
  se_auth : authed e (Some self) sender = true;
  se_nums : compute_swap (res_of p offer) (res_other p offer) amt (dec_bps (p_fee p)) 0 = Ok r;
  se_ret : ret = cs_ret r;
  se_min : forall m, mi = Some m -> m <= ret;
  se_fee : forall f, mf = Some f -> p_fee p <= f;
  se_ms : forall s, ms = Some s -> 0 <= s <= p_maxspread p;
  se_tot : cs_ret r + cs_comm r <= I128_MAX;
  se_spread : exists q, dec_from_ratio (cs_spread r) (cs_ret r + cs_comm r) = Ok q /\
     q <= dec_bps (opt_or ms (p_maxspread p));
  se_in : Moved offer sender self amt w w1;
  se_out : Moved (buy_of p offer) self sender ret w1 w2;
  se_com : Moved (buy_of p offer) self (p_feerec p) (cs_comm r) w2 w3;
  se_end : w' = set_pool w3 (fset self (set_res_for p offer (res_of p offer + amt)
             (res_other p offer - (cs_ret r + cs_comm r))) (w_pool w)) }.

Lemma do_swap_ok e self sender offer amt mi ms mf w w' ret :
  do_swap e self sender offer amt mi ms mf w = Ok (ret, w') -> sender <> self ->
  exists p r w1 w2 w3, SwapEff e self sender offer amt mi ms mf w w' ret p r w1 w2 w3.
Proof.
  unfold do_swap. intros H Hs.
  apply mbind_ok in H. destruct H as [p [w0 [H0 H]]].
  apply get_pool_ok in H0. destruct H0 as [Hp ->].
  rstep H.
  match goal with G : (offer =? _) || _ = true |- _ => rename G into Ho end.
  match goal with G : match mf with _ => _ end = true |- _ => rename G into Hf end.
  match goal with G : match ms with _ => _ end = true |- _ => rename G into Hm end.
  remember (offer =? p_ta p) as isa eqn:Ei.
  assert (E1 : (if isa then (p_ra p, p_rb p) else (p_rb p, p_ra p)) = (res_of p offer, res_other p offer)).
  { unfold res_of, res_other. rewrite <- Ei. destruct isa; reflexivity. }
  assert (Eo : offer = p_ta p \/ offer = p_tb p) by (destruct isa; lia).
  assert (E2 : (if isa then (p_ta p, p_tb p) else (p_tb p, p_ta p)) = (offer, buy_of p offer)).
  { unfold buy_of. rewrite <- Ei. destruct isa; f_equal; lia. }
  match goal with R : _ = Ok (ret, w') |- _ => rename R into H end.
  rewrite E1 in H.
  apply mbind_ok in H. destruct H as [r [wr [Hc H]]]. apply mlift_ok in Hc. destruct Hc as [r' [Hc Er]].
  inversion Er; subst r' wr; clear Er.
  pose proof (compute_swap_ok _ _ _ _ _ Hc) as SN.
  rstep H.
  match goal with R : _ = Ok (ret, w') |- _ => rename R into H end.
  rewrite E2 in H. cbv beta iota zeta in H. rstep H. tinv. winv.
  match goal with R : Moved offer sender self amt _ ?wx |- _ => rename R into M1; rename wx into W1 end.
  match goal with R : Moved (buy_of p offer) self sender _ _ ?wx |- _ => rename R into M2; rename wx into W2 end.
  match goal with R : Moved (buy_of p offer) self (p_feerec p) _ _ ?wx |- _ => rename R into M3; rename wx into W3 end.
  match goal with R : assert_max_spread _ _ _ = Ok _ |- _ => unfold assert_max_spread in R; rstep R end.
  rewrite (sn_ref _ _ _ _ _ SN) in *. rewrite Z.add_0_r in *.
  exists p, r, W1, W2, W3.
  assert (Erecv : bal W1 offer self - bal w offer self = amt).
  { rewrite (mv_bal _ _ _ _ _ _ M1). rewrite Z.eqb_refl. simpl.
    destruct (Z.eqb_spec self sender); [congruence|]. rewrite Z.eqb_refl. unfold ind. lia. }
  constructor; auto.
  - intros m ->. match goal with G : negb (_ <? m) = true |- _ => lia end.
  - intros f ->. lia.
  - intros s ->. lia.
  - lia.
  - match goal with G : negb (_ <? _) = true |- _ => exists x end.
    split; [assumption|]. unfold opt_or. destruct ms; lia.
  - unfold set_res_for.
    rewrite (mv_pool _ _ _ _ _ _ M3), (mv_pool _ _ _ _ _ _ M2), (mv_pool _ _ _ _ _ _ M1).
    rewrite Erecv.
    replace (res_other p offer - cs_comm r - 0 - cs_ret r) with
      (res_other p offer - (cs_ret r + cs_comm r)) by lia.
    reflexivity.
Qed.

Lemma bal_wtok w w' t a : w_tok w' = w_tok w -> bal w' t a = bal w t a.
Proof. unfold bal. intros ->. reflexivity. Qed.
Lemma supply_wtok w w' t : w_tok w' = w_tok w -> supply w' t = supply w t.
Proof. unfold supply. intros ->. reflexivity. Qed.
Lemma tadmin_wtok w w' t : w_tok w' = w_tok w -> tadmin w' t = tadmin w t.
Proof. unfold tadmin. intros ->. reflexivity. Qed.

(** ** Deposit amounts *)
Lemma dep_side_ok d o rt ro mn slip c1 c2 a :
  dep_side d o rt ro mn slip c1 c2 = Ok a -> 0 < d -> 0 <= o -> 0 <= rt -> 0 <= ro ->
  0 < ro /\ a = Z.min d (o * rt / ro) /\ 0 <= a <= d /\ (forall m, mn = Some m -> m <= a) /\
  (d < o * rt / ro -> (o * rt / ro * DEC) / d - DEC <= slip).
Proof.
  unfold dep_side, dec_sub. intros H Hd Ho Hrt Hro. rstep H.
  match goal with R : match mn with _ => _ end = true |- _ => rename R into Hm end.
  assert (P : 0 < ro) by lia.
  rewrite quot_nonneg_div in * by nia.
  assert (Q : 0 <= o * rt / ro) by (apply Z.div_pos; nia).
  remember (o * rt / ro) as q.
  match goal with R : (if d <? q then _ else _) = Ok a |- _ => rename R into Hi end.
  destruct (Z.ltb_spec d q).
  - rstep Hi. match goal with R : dec_from_ratio _ _ = Ok _ |- _ => apply dec_from_ratio_pos in R; [|lia|lia] end.
    match goal with R : (if ?x - dec_one <=? slip then _ else _) = Ok a |- _ => 
      destruct (Z.leb_spec (x - dec_one) slip); [|discriminate]; inversion R; subst a end.
    split; [auto|]. split; [lia|]. split; [lia|]. split.
    + intros m ->. lia.
    + intros _. destruct R0 as [_ [<- _]]. unfold dec_one in *. lia.
  - inversion Hi; subst a. split; [auto|]. split; [lia|]. split; [lia|]. split; [|lia].
    intros m ->. lia.
Qed.

Record DepNums (da db : Z) (mina minb : option Z) (ra rb slip a b : Z) : Prop := {
  dn_da : 0 < da; dn_db : 0 < db;
  dn_a : 0 <= a <= da; dn_b : 0 <= b <= db;
  dn_case : (ra = 0 /\ rb = 0 /\ a = da /\ b = db) \/
    (0 < ra /\ 0 < rb /\ a = Z.min da (db * ra / rb) /\ b = Z.min db (da * rb / ra) /\
     (forall m, mina = Some m -> m <= a) /\ (forall m, minb = Some m -> m <= b) /\
     (da < db * ra / rb -> (db * ra / rb * DEC) / da - DEC <= slip) /\
     (db < da * rb / ra -> (da * rb / ra * DEC) / db - DEC <= slip)) }.

Lemma deposit_amounts_ok da mina db minb ra rb slip a b :
  deposit_amounts da mina db minb ra rb slip = Ok (a, b) -> 0 <= ra -> 0 <= rb ->
  DepNums da db mina minb ra rb slip a b.
Proof.
  unfold deposit_amounts. intros H Ha Hb. rstep H.
  match goal with R : _ = Ok (a, b) |- _ => rename R into Hr end.
  assert (Pa : 0 < da) by lia. assert (Pb : 0 < db) by lia.
  destruct ((ra =? 0) && (rb =? 0)) eqn:Z0.
  - inversion Hr; subst. constructor; try lia. 
  - rstep Hr.
    repeat match goal with R : dep_side _ _ _ _ _ _ _ _ = Ok _ |- _ =>
      apply dep_side_ok in R; [|lia|lia|lia|lia]; destruct R as [? [? [? [? ?]]]] end.
    constructor; auto. right. auto 12.
Qed.

(** ** Effect of a deposit *)
Record ProvEff (e : Env) (self sender : Addr) (da mina db minb custom : option Z) (w w' : World)
    (p : Pool) (xa xb a b : Z) (w1 w2 w4 : World) : Prop := {
  pe_pool : fget self (w_pool w) = Some p;
  pe_auth : authed e (Some self) sender = true;
  pe_da : da = Some xa; pe_db : db = Some xb;
  pe_custom : forall s, custom = Some s -> s <= p_maxslip p;
  pe_nums : deposit_amounts xa mina xb minb (p_ra p) (p_rb p) (dec_bps (opt_or custom (p_defslip p))) = Ok (a, b);
  pe_in_a : Moved (p_ta p) sender self a w w1;
  pe_in_b : Moved (p_tb p) sender self b w1 w2;
  pe_tot : exists n,
    fget self (w_pool w') = Some (set_p_res (set_p_total p n) (bal w2 (p_ta p) self) (bal w2 (p_tb p) self)) /\
    ((0 < p_ra p /\ 0 < p_rb p /\ Minted (p_share p) sender (n - p_total p) w2 w4 /\
      n = Z.min (Z.quot (bal w2 (p_ta p) self * p_total p) (p_ra p))
                (Z.quot (bal w2 (p_tb p) self * p_total p) (p_rb p))) \/
     (~ (0 < p_ra p /\ 0 < p_rb p) /\ 1000 < Z.sqrt (a * b) /\ n = Z.sqrt (a * b) /\
      exists w3, Minted (p_share p) self 1000 w2 w3 /\ Minted (p_share p) sender (n - 1000 - p_total p) w3 w4));
  pe_end : w_tok w' = w_tok w4 }.

Lemma mint_shares_ok e self to amt w u w' : mint_shares e self to amt w = Ok (u, w') ->
  exists p w1, fget self (w_pool w) = Some p /\ Minted (p_share p) to amt w w1 /\
    fget self (w_pool w') = Some (set_p_total p (p_total p + amt)) /\ w_tok w' = w_tok w1 /\
    (exists a, tadmin w (p_share p) = Some a /\ authed e (Some self) a = true) /\ p_total p + amt <= I128_MAX.
Proof.
  unfold mint_shares. intros H. rstep H. winv. tinv.
  eexists _, _. split; [eassumption|]. split; [eassumption|]. simpl.
  split; [apply fget_set_same|]. split; [auto|]. split; [auto|lia].
Qed.

Lemma burn_shares_ok e self amt w u w' : burn_shares e self amt w = Ok (u, w') ->
  exists p w1, fget self (w_pool w) = Some p /\ Burned (p_share p) self amt w w1 /\
    fget self (w_pool w') = Some (set_p_total p (p_total p - amt)) /\ w_tok w' = w_tok w1.
Proof.
  unfold burn_shares. intros H. rstep H. winv. tinv.
  eexists _, _. split; [eassumption|]. split; [eassumption|]. simpl.
  split; [apply fget_set_same|]. auto.
Qed.

Lemma Minted_wtok t to amt w w' v v' : Minted t to amt w w' -> w_tok v = w_tok w -> w_tok v' = w_tok w' ->
  v' = set_tok v (w_tok v') -> Minted t to amt v v'.
Proof.
  intros M E E' R. constructor; auto.
  - apply M.
  - intros. rewrite (bal_wtok w' v'), (bal_wtok w v) by auto. apply M.
  - rewrite (bal_wtok w' v') by auto. apply M.
  - intros. rewrite (supply_wtok w' v'), (supply_wtok w v) by auto. apply M.
  - intros. rewrite (tadmin_wtok w' v'), (tadmin_wtok w v) by auto. apply M.
  - intros. unfold tdec. rewrite E, E'. apply (mt_dec _ _ _ _ _ M).
Qed.

Lemma pool_provide_ok e c self sender da mina db minb custom dl w u w' :
  pool_provide e c self sender da mina db minb custom dl w = Ok (u, w') -> 
  (forall d, dl = Some d -> w_now w <= d) /\ authed e c sender = true /\
  (vpos da && vpos mina && vpos db && vpos minb = true) /\
  exists p xa xb a b w1 w2 w4, ProvEff e self sender da mina db minb custom w w' p xa xb a b w1 w2 w4.
Proof.
  unfold pool_provide. intros H. rstep H. winv.
  split; [assumption|]. split; [assumption|]. split; [assumption|].
  match goal with x : (Z * Z)%type |- _ => destruct x as [a b] end.
  match goal with R : _ = Ok (u, w') |- _ => rename R into H end.
  rstep H. tinv. winv.
  destruct da as [xa|]; [|discriminate]. destruct db as [xb|]; [|discriminate].
  match goal with R : (if (0 <? xa) && (0 <? xb) then _ else _) = Ok _ |- _ =>
    destruct ((0 <? xa) && (0 <? xb)) eqn:Pab; [|discriminate]; rename R into Hd end.
  match goal with R : fget self (w_pool w) = Some ?q |- _ => rename q into p end.
  match goal with R : Moved (p_ta p) _ _ _ _ ?wx |- _ => rename R into M1; rename wx into W1 end.
  match goal with R : Moved (p_tb p) _ _ _ _ ?wx |- _ => rename R into M2; rename wx into W2 end.
  match goal with R : new_share_total _ _ _ _ _ _ _ _ = Ok _ |- _ => rename R into Hn end.
  match goal with R : mint_shares _ _ _ _ _ = Ok _ |- _ => apply mint_shares_ok in R; 
    destruct R as [p3 [W4 [Ep3 [Mt [Eend [Etok _]]]]]] end.
  match goal with R : fget self (w_pool ?wz) = Some ?q, R2 : fget self (w_pool ?wz) = Some _ |- _ => idtac end.
  assert (Ep2 : fget self (w_pool W2) = Some p).
  { rewrite (mv_pool _ _ _ _ _ _ M2), (mv_pool _ _ _ _ _ _ M1). assumption. }
  unfold new_share_total in Hn.
  destruct ((0 <? p_ra p) && (0 <? p_rb p)) eqn:Fund.
  - rstep Hn. rewrite Ep2 in Ep3. inversion Ep3; subst p3; clear Ep3.
    rewrite Eend in *. 
    match goal with R : Some _ = Some ?q |- _ => inversion R; subst q; clear R end.
    exists p, xa, xb, a, b, W1, W2, W4. constructor; auto.
    + intros s ->. lia.
    + eexists. split.
      { simpl. rewrite fget_set_same. unfold set_p_res, set_p_total; simpl. reflexivity. }
      left. split; [lia|]. split; [lia|].
      rewrite Z.add_sub_assoc, Z.add_simpl_l. split; [exact Mt|reflexivity].
  - rstep Hn.
    match goal with R : mint_shares _ _ _ _ _ = Ok _ |- _ => apply mint_shares_ok in R; 
      destruct R as [p4 [W3 [Ep4 [Mt0 [Eend0 [Etok0 _]]]]]] end.
    rewrite Ep2 in Ep4. inversion Ep4; subst p4; clear Ep4.
    rewrite Eend0 in Ep3. inversion Ep3; subst p3; clear Ep3.
    rewrite Eend in *.
    match goal with R : Some _ = Some ?q |- _ => inversion R; subst q; clear R end.
    cbn [p_share set_p_total] in Mt.
    exists p, xa, xb, a, b, W1, W2, (set_tok W3 (w_tok W4)). constructor; auto.
    + intros s ->. lia.
    + eexists. split.
      { simpl. rewrite fget_set_same. unfold set_p_res, set_p_total, MINIMUM_LIQUIDITY_AMOUNT; simpl. reflexivity. }
      right. unfold MINIMUM_LIQUIDITY_AMOUNT in *.
      assert (Es : p_total p + 1000 + (Z.sqrt (a * b) - 1000 - p_total p) = Z.sqrt (a * b)) by lia.
      rewrite Es.
      split; [lia|]. split; [lia|]. split; [reflexivity|]. exists W3. split; [exact Mt0|].
      eapply Minted_wtok; [exact Mt|auto|reflexivity|reflexivity].
Qed.

(** the new total of the shares is a 128-bit number *)
Lemma pool_provide_fits e c self sender da mina db minb custom dl w u w' q :
  pool_provide e c self sender da mina db minb custom dl w = Ok (u, w') ->
  fget self (w_pool w') = Some q -> p_total q <= I128_MAX.
Proof.
  unfold pool_provide. intros H. rstep H. winv.
  match goal with x : (Z * Z)%type |- _ => destruct x as [a b] end.
  match goal with R : _ = Ok (u, w') |- _ => rename R into H end.
  rstep H. tinv. winv.
  match goal with R : mint_shares _ _ _ _ _ = Ok _ |- _ => apply mint_shares_ok in R;
    destruct R as [p3 [W4 [Ep3 [Mt [Eend [Etok [_ Fit]]]]]]] end.
  match goal with R : fget self (w_pool _) = Some ?r |- fget self _ = Some _ -> _ =>
    rewrite Eend in R; inversion R; subst r end.
  simpl. rewrite fget_set_same. intros Eq. inversion Eq; subst q. simpl. exact Fit.
Qed.

(** ** Effect of a withdrawal *)
Record WdEff (e : Env) (self sender share mina minb : Z) (w w' : World) (a b : Z)
    (p : Pool) (ratio : Z) (w1 w2 w3 w4 : World) : Prop := {
  we_pool : fget self (w_pool w) = Some p;
  we_auth : authed e (Some self) sender = true;
  we_pos : 0 < share /\ 0 < mina /\ 0 < minb;
  we_total : p_total p <> 0;
  we_ratio : dec_from_ratio share (p_total p) = Ok ratio;
  we_a : i_mul_dec (p_ra p) ratio = Ok a;
  we_b : i_mul_dec (p_rb p) ratio = Ok b;
  we_min : mina <= a /\ minb <= b;
  we_in : Moved (p_share p) sender self share w w1;
  we_burn : Burned (p_share p) self share w1 w2;
  we_out_a : Moved (p_ta p) self sender a w2 w3;
  we_out_b : Moved (p_tb p) self sender b w3 w4;
  we_end : w_tok w' = w_tok w4;
  we_pool' : fget self (w_pool w') =
     Some (set_p_res (set_p_total p (p_total p - share)) (p_ra p - a) (p_rb p - b)) }.

Lemma Moved_wtok t f to amt w w' v v' : Moved t f to amt w w' -> w_tok v = w_tok w -> w_tok v' = w_tok w' ->
  v' = set_tok v (w_tok v') -> Moved t f to amt v v'.
Proof.
  intros M E E' R. constructor; auto.
  - apply M.
  - rewrite (bal_wtok w v) by auto. apply M.
  - intros. rewrite (bal_wtok w' v'), (bal_wtok w v) by auto. apply M.
  - rewrite (bal_wtok w' v') by auto. apply M.
  - intros. rewrite (supply_wtok w' v'), (supply_wtok w v) by auto. apply M.
  - intros. rewrite (tadmin_wtok w' v'), (tadmin_wtok w v) by auto. apply M.
  - intros. unfold tdec. rewrite E, E'. apply (mv_dec _ _ _ _ _ _ M).
Qed.

Lemma pool_withdraw_ok e c self sender share mina minb dl w a b w' :
  pool_withdraw e c self sender share mina minb dl w = Ok ((a, b), w') ->
  (forall d, dl = Some d -> w_now w <= d) /\ authed e c sender = true /\
  exists p ratio w1 w2 w3 w4, WdEff e self sender share mina minb w w' a b p ratio w1 w2 w3 w4.
Proof.
  unfold pool_withdraw. intros H. rstep H. winv. tinv. destr_pair.
  split; [assumption|]. split; [assumption|].
  match goal with R : fget self (w_pool w) = Some ?q |- _ => rename q into p; rename R into Hp end.
  match goal with R : Moved (p_share p) _ _ _ _ ?wx |- _ => rename R into M1; rename wx into W1 end.
  match goal with R : burn_shares _ _ _ _ = Ok _ |- _ => apply burn_shares_ok in R;
    destruct R as [p3 [W2 [Ep3 [Bn [Eend Etok]]]]] end.
  rewrite (mv_pool _ _ _ _ _ _ M1), Hp in Ep3. inversion Ep3; subst p3; clear Ep3.
  match goal with R : Moved (p_ta p) _ _ _ _ ?wx |- _ => rename R into M3; rename wx into W3 end.
  match goal with R : Moved (p_tb p) _ _ _ _ ?wx |- _ => rename R into M4; rename wx into W4 end.
  match goal with R : fget self (w_pool W4) = Some _ |- _ => rename R into Hp4 end.
  rewrite (mv_pool _ _ _ _ _ _ M4), (mv_pool _ _ _ _ _ _ M3), Eend in Hp4.
  inversion Hp4; subst; clear Hp4.
  eexists p, _, W1, W2, (set_tok W2 (w_tok W3)), (set_tok W2 (w_tok W4)).
  constructor; eauto; try reflexivity.
  - cbn [vpos] in *. lia.
  - lia.
  - lia.
  - eapply Moved_wtok; [exact M3|auto|reflexivity|reflexivity].
  - eapply Moved_wtok; [exact M4|reflexivity|reflexivity|reflexivity].
  - simpl. apply fget_set_same.
Qed.

(** ** The invariant *)
Record PoolInv (w : World) (c : Addr) (p : Pool) : Prop := {
  pi_ord : p_ta p < p_tb p;
  pi_sa : p_share p <> p_ta p;
  pi_sb : p_share p <> p_tb p;
  pi_adm : tadmin w (p_share p) = Some c;
  pi_ra : 0 <= p_ra p <= bal w (p_ta p) c;
  pi_rb : 0 <= p_rb p <= bal w (p_tb p) c;
  pi_sup : supply w (p_share p) <= p_total p;
  pi_min : p_total p = 0 \/ (1000 <= p_total p /\ 1000 <= bal w (p_share p) c);
  pi_zero : p_total p = 0 -> p_ra p = 0 /\ p_rb p = 0;
  pi_some : p_total p <> 0 -> 0 < p_ra p \/ 0 < p_rb p;
  pi_bps : vbps (p_fee p) && vbps (p_maxslip p) && vbps (p_maxspread p) && vbps (p_maxref p) = true;
  pi_fit : p_total p <= I128_MAX }.

Lemma PoolInv_UT w w' c p : UT c w w' -> PoolInv w c p -> PoolInv w' c p.
Proof.
  intros U I. destruct (ut_tok _ _ _ U _ (pi_adm _ _ _ I)) as [A S].
  pose proof (ut_bal _ _ _ U (p_ta p)). pose proof (ut_bal _ _ _ U (p_tb p)).
  pose proof (ut_bal _ _ _ U (p_share p)).
  destruct I. constructor; auto; lia.
Qed.

Lemma authed_ne e c self sender w K : Good w -> fget self (w_code w) = Some K -> c <> Some self ->
  authed e c sender = true -> sender <> self.
Proof.
  intros G C N A ->. pose proof (gd_pos _ G _ _ C).
  eapply authed_contract; [eassumption| |eassumption]. congruence.
Qed.

Ltac simp_ind :=
  repeat match goal with
  | |- context [?a =? ?a] => rewrite (Z.eqb_refl a)
  | H : ?a <> ?b |- context [?a =? ?b] => rewrite (proj2 (Z.eqb_neq a b) H)
  | H : ?b <> ?a |- context [?a =? ?b] => rewrite (proj2 (Z.eqb_neq a b) (not_eq_sym H))
  end; cbn [andb ind].

Lemma swap_inv e self sender offer amt mi ms mf w w' ret p r w1 w2 w3 :
  SwapEff e self sender offer amt mi ms mf w w' ret p r w1 w2 w3 ->
  sender <> self -> PoolInv w self p ->
  exists p', fget self (w_pool w') = Some p' /\ PoolInv w' self p'.
Proof.
  intros E Hs I. destruct E. subst w' ret.
  pose proof (compute_swap_ok _ _ _ _ _ se_nums0) as SN.
  pose proof (sn_x _ _ _ _ _ SN) as Px.
  pose proof (gross_bounds _ _ _ (sn_x _ _ _ _ _ SN) (sn_y _ _ _ _ _ SN) (sn_dx _ _ _ _ _ SN)) as [GB _].
  rewrite <- (sn_sum _ _ _ _ _ SN) in GB.
  pose proof (sn_ret _ _ _ _ _ SN). pose proof (sn_comm_pos _ _ _ _ _ SN). pose proof (sn_dx _ _ _ _ _ SN).
  pose proof (pi_ord _ _ _ I) as Hord.
  eexists. split; [simpl; apply fget_set_same|].
  assert (B : forall t a, bal (set_pool w3 (fset self (set_res_for p offer (res_of p offer + amt)
             (res_other p offer - (cs_ret r + cs_comm r))) (w_pool w))) t a = bal w3 t a) by reflexivity.
  assert (Bs : forall t, bal w3 t self >= bal w t self + ind (t =? offer) amt - ind (t =? buy_of p offer) (cs_ret r + cs_comm r)).
  { intros t. rewrite (mv_bal _ _ _ _ _ _ se_com0), (mv_bal _ _ _ _ _ _ se_out0), (mv_bal _ _ _ _ _ _ se_in0).
    rewrite (Z.eqb_refl self). rewrite !andb_true_r.
    destruct (Z.eqb_spec self sender); [congruence|]. rewrite !andb_false_r.
    unfold ind. destruct (t =? offer), (t =? buy_of p offer), (self =? p_feerec p); simpl; lia. }
  assert (S3 : forall t, supply w3 t = supply w t).
  { intros t. rewrite (mv_sup _ _ _ _ _ _ se_com0), (mv_sup _ _ _ _ _ _ se_out0), (mv_sup _ _ _ _ _ _ se_in0). auto. }
  assert (A3 : forall t, tadmin w3 t = tadmin w t).
  { intros t. rewrite (mv_adm _ _ _ _ _ _ se_com0), (mv_adm _ _ _ _ _ _ se_out0), (mv_adm _ _ _ _ _ _ se_in0). auto. }
  pose proof (Bs (p_ta p)) as Ba. pose proof (Bs (p_tb p)) as Bb. pose proof (Bs (p_share p)) as Bsh.
  clear Bs. unfold set_res_for, res_of, res_other, buy_of in *.
  destruct I. 
  destruct (Z.eqb_spec offer (p_ta p)) as [Eo|No].
  - subst offer. rewrite Z.eqb_refl in *.
    destruct (Z.eqb_spec (p_ta p) (p_tb p)); [lia|].
    destruct (Z.eqb_spec (p_tb p) (p_ta p)); [lia|].
    destruct (Z.eqb_spec (p_share p) (p_ta p)); [congruence|].
    destruct (Z.eqb_spec (p_share p) (p_tb p)); [congruence|]. unfold ind in *.
    constructor; simpl; auto; rewrite ?B; unfold supply, tadmin in *; simpl in *; try rewrite S3; try rewrite A3; auto; try lia.
  - assert (offer = p_tb p) by tauto. subst offer. rewrite Z.eqb_refl in *.
    destruct (Z.eqb_spec (p_ta p) (p_tb p)); [lia|].
    destruct (Z.eqb_spec (p_share p) (p_ta p)); [congruence|].
    destruct (Z.eqb_spec (p_share p) (p_tb p)); [congruence|]. unfold ind in *.
    destruct (Z.eqb_spec (p_tb p) (p_ta p)); [lia|].
    constructor; simpl; auto; rewrite ?B; unfold supply, tadmin in *; simpl in *; try rewrite S3; try rewrite A3; auto; try lia.
Qed.

Lemma quot_pos_le a b : 0 <= a -> 0 < b -> 0 <= Z.quot a b.
Proof. intros. apply Z.quot_pos; lia. Qed.

Lemma provide_inv e self sender da mina db minb custom w w' p xa xb a b w1 w2 w4 :
  ProvEff e self sender da mina db minb custom w w' p xa xb a b w1 w2 w4 ->
  Good w -> sender <> self -> (forall q, fget self (w_pool w') = Some q -> p_total q <= I128_MAX) -> PoolInv w self p ->
  exists p', fget self (w_pool w') = Some p' /\ PoolInv w' self p'.
Proof.
  intros E G Hs Fit I. destruct E. destruct pe_tot0 as [n [Ep Hn]]. pose proof (Fit _ Ep) as Fn. simpl in Fn.
  pose proof (deposit_amounts_ok _ _ _ _ _ _ _ _ _ pe_nums0 ltac:(apply (pi_ra _ _ _ I)) ltac:(apply (pi_rb _ _ _ I))) as DN.
  eexists. split; [exact Ep|].
  pose proof (dn_a _ _ _ _ _ _ _ _ _ DN) as Pa. pose proof (dn_b _ _ _ _ _ _ _ _ _ DN) as Pb.
  pose proof (dn_da _ _ _ _ _ _ _ _ _ DN) as Pda. pose proof (dn_db _ _ _ _ _ _ _ _ _ DN) as Pdb.
  assert (B2 : forall t, bal w2 t self = bal w t self + ind (t =? p_ta p) a + ind (t =? p_tb p) b).
  { intros t. rewrite (mv_bal _ _ _ _ _ _ pe_in_b0), (mv_bal _ _ _ _ _ _ pe_in_a0).
    rewrite (Z.eqb_refl self). rewrite !andb_true_r.
    destruct (Z.eqb_spec self sender); [congruence|]. rewrite !andb_false_r. unfold ind. lia. }
  assert (S2 : forall t, supply w2 t = supply w t).
  { intros t. rewrite (mv_sup _ _ _ _ _ _ pe_in_b0), (mv_sup _ _ _ _ _ _ pe_in_a0). auto. }
  assert (A2 : forall t, tadmin w2 t = tadmin w t).
  { intros t. rewrite (mv_adm _ _ _ _ _ _ pe_in_b0), (mv_adm _ _ _ _ _ _ pe_in_a0). auto. }
  pose proof (B2 (p_ta p)) as Ba. pose proof (B2 (p_tb p)) as Bb. pose proof (B2 (p_share p)) as Bsh.
  destruct I.
  rewrite Z.eqb_refl in Ba. rewrite Z.eqb_refl in Bb.
  destruct (Z.eqb_spec (p_ta p) (p_tb p)); [lia|].
  destruct (Z.eqb_spec (p_tb p) (p_ta p)); [lia|].
  destruct (Z.eqb_spec (p_share p) (p_ta p)); [congruence|].
  destruct (Z.eqb_spec (p_share p) (p_tb p)); [congruence|].
  unfold ind in Ba, Bb, Bsh.
  destruct Hn as [[Fa [Fb [Mt En]]]|[Nf [S1000 [En [w3 [Mt0 Mt]]]]]].
  - pose proof (mt_pos _ _ _ _ _ Mt) as Pn.
    pose proof (mt_bal _ _ _ _ _ Mt) as Mb. pose proof (mt_sup _ _ _ _ _ Mt) as Ms. pose proof (mt_adm _ _ _ _ _ Mt) as Ma.
    assert (T1 : 1000 <= p_total p /\ 1000 <= bal w (p_share p) self).
    { destruct pi_min0; auto. specialize (pi_zero0 H). lia. }
    constructor; simpl; auto; rewrite ?(bal_wtok w4 w'), ?(supply_wtok w4 w'), ?(tadmin_wtok w4 w') by auto;
      rewrite ?Mb, ?Ms, ?Ma, ?A2, ?S2, ?Z.eqb_refl; simp_ind; auto; try lia.
    all: unfold ind; repeat match goal with |- context [if ?b then _ else _] => destruct b end; lia.
  - assert (T0 : p_total p = 0).
    { destruct (dn_case _ _ _ _ _ _ _ _ _ DN) as [C|C]; [|lia].
      destruct (Z.eq_dec (p_total p) 0); auto. specialize (pi_some0 n4). lia. }
    pose proof (mt_pos _ _ _ _ _ Mt) as Pn.
    pose proof (mt_bal _ _ _ _ _ Mt) as Mb. pose proof (mt_sup _ _ _ _ _ Mt) as Ms. pose proof (mt_adm _ _ _ _ _ Mt) as Ma.
    pose proof (mt_bal _ _ _ _ _ Mt0) as Mb0. pose proof (mt_sup _ _ _ _ _ Mt0) as Ms0. pose proof (mt_adm _ _ _ _ _ Mt0) as Ma0.
    assert (NN : 0 < bal w2 (p_ta p) self).
    { destruct (dn_case _ _ _ _ _ _ _ _ _ DN) as [C|C]; lia. }
    constructor; simpl; auto; rewrite ?(bal_wtok w4 w'), ?(supply_wtok w4 w'), ?(tadmin_wtok w4 w') by auto;
      rewrite ?Mb, ?Ms, ?Ma, ?Mb0, ?Ms0, ?Ma0, ?A2, ?S2, ?Z.eqb_refl; simp_ind; auto; try lia.
    all: pose proof (good_bal w (p_share p) self G);
      unfold ind; repeat match goal with |- context [if ?b then _ else _] => destruct b end; lia.
Qed.

Lemma wd_numbers share total ratio r a : 0 < share -> 0 < total -> 0 <= r ->
  dec_from_ratio share total = Ok ratio -> i_mul_dec r ratio = Ok a ->
  0 <= a /\ total * a <= r * share /\
  (* the payout misses the exact share by less than one unit plus r/10^18 *)
  r * share * DEC < total * a * DEC + total * DEC + total * r.
Proof.
  intros Hs Ht Hr H1 H2. apply dec_from_ratio_pos in H1; [|lia|lia]. destruct H1 as [P [_ [L U]]].
  apply i_mul_dec_pos in H2; [|lia|lia]. destruct H2 as [Pa [_ [L2 U2]]].
  assert (D : 0 < DEC) by (unfold DEC; lia).
  split; [lia|]. split.
  - assert (DEC * (total * a) <= DEC * (r * share)); [|nia].
    transitivity (total * (r * ratio)); [nia|]. nia.
  - assert (r * share * DEC < total * a * DEC + total * DEC + total * r \/ r = 0) as [X| ->]; [|exact X|nia].
    destruct (Z.eq_dec r 0); [right; auto|left].
    assert (r * (share * DEC) < r * (total * (ratio + 1))) by nia.
    assert (total * (r * ratio) < total * (DEC * (a + 1))) by nia. nia.
Qed.

Lemma withdraw_inv e self sender share mina minb w w' a b p ratio w1 w2 w3 w4 :
  WdEff e self sender share mina minb w w' a b p ratio w1 w2 w3 w4 ->
  Good w -> sender <> self -> PoolInv w self p ->
  exists p', fget self (w_pool w') = Some p' /\ PoolInv w' self p'.
Proof.
  intros E G Hs I. destruct E.
  eexists. split; [exact we_pool'0|].
  assert (T1 : 1000 <= p_total p /\ 1000 <= bal w (p_share p) self) by (destruct (pi_min _ _ _ I); tauto).
  pose proof (good_supply2 w (p_share p) self sender G (not_eq_sym Hs)) as G2.
  pose proof (mv_le _ _ _ _ _ _ we_in0) as Ls.
  pose proof (pi_sup _ _ _ I) as Ps.
  assert (PT : 0 < p_total p) by lia.
  destruct (wd_numbers _ _ _ _ _ (proj1 we_pos0) PT (proj1 (pi_ra _ _ _ I)) we_ratio0 we_a0) as [Na [La _]].
  destruct (wd_numbers _ _ _ _ _ (proj1 we_pos0) PT (proj1 (pi_rb _ _ _ I)) we_ratio0 we_b0) as [Nb [Lb _]].
  assert (B4 : forall t, bal w4 t self = bal w t self - ind (t =? p_ta p) a - ind (t =? p_tb p) b).
  { intros t. rewrite (mv_bal _ _ _ _ _ _ we_out_b0), (mv_bal _ _ _ _ _ _ we_out_a0), (bn_bal _ _ _ _ _ we_burn0), (mv_bal _ _ _ _ _ _ we_in0).
    rewrite (Z.eqb_refl self). rewrite !andb_true_r.
    destruct (Z.eqb_spec self sender); [congruence|]. rewrite !andb_false_r. unfold ind. lia. }
  assert (S4 : forall t, supply w4 t = supply w t - ind (t =? p_share p) share).
  { intros t. rewrite (mv_sup _ _ _ _ _ _ we_out_b0), (mv_sup _ _ _ _ _ _ we_out_a0), (bn_sup _ _ _ _ _ we_burn0), (mv_sup _ _ _ _ _ _ we_in0). auto. }
  assert (A4 : forall t, tadmin w4 t = tadmin w t).
  { intros t. rewrite (mv_adm _ _ _ _ _ _ we_out_b0), (mv_adm _ _ _ _ _ _ we_out_a0), (bn_adm _ _ _ _ _ we_burn0), (mv_adm _ _ _ _ _ _ we_in0). auto. }
  assert (Ka : a <= p_ra p). { destruct I. nia. }
  assert (Kb : b <= p_rb p). { destruct I. nia. }
  assert (Ka2 : 0 < p_ra p -> a < p_ra p). { intros. nia. }
  assert (Kb2 : 0 < p_rb p -> b < p_rb p). { intros. nia. }
  destruct I.
  constructor; simpl; auto; rewrite ?(bal_wtok w4 w'), ?(supply_wtok w4 w'), ?(tadmin_wtok w4 w') by auto;
    rewrite ?B4, ?S4, ?A4; unfold ind; rewrite ?Z.eqb_refl; auto.
  - destruct (Z.eqb_spec (p_ta p) (p_tb p)); lia.
  - destruct (Z.eqb_spec (p_tb p) (p_ta p)); lia.
  - lia.
  - right. destruct (Z.eqb_spec (p_share p) (p_ta p)); [congruence|].
    destruct (Z.eqb_spec (p_share p) (p_tb p)); [congruence|]. lia.
  - lia.
  - intros _. destruct (pi_some0 we_total0); [left|right]; lia.
  - lia.
Qed.
