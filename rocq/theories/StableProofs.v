(** Effects and invariant of the stable pool. *)
From Coq Require Import ZArith List Bool Lia.
From Coq Require Import ZifyBool.
From Verif Require Import Base FMap Decimal DecimalProofs World Token TokenProofs Frame Stake Pool PoolProofs Stable.
Import ListNotations.
Open Scope Z_scope.

Lemma mv_stable t f to a w w' : Moved t f to a w w' -> w_stable w' = w_stable w.
Proof. intros M. rewrite (mv_rest _ _ _ _ _ _ M). reflexivity. Qed.

(** ** Arithmetic *)
Lemma div_nonneg a b : 0 <= a -> 0 <= b -> 0 <= a / b.
Proof.
  intros. destruct (Z.eq_dec b 0) as [->|]; [rewrite Zdiv_0_r; lia|]. apply Z.div_pos; lia.
Qed.

Lemma pow10_u_ok n r : pow10_u n = Ok r -> 0 <= n /\ r = 10 ^ n /\ 0 < r <= U128_MAX.
Proof.
  unfold pow10_u. destruct (Z.ltb_spec n 0); [discriminate|]. intros E. apply chk_ok in E.
  rewrite in_u128_iff in E. assert (0 < 10 ^ n) by (apply Z.pow_pos_nonneg; lia).
  destruct E as [-> E]. lia.
Qed.

Lemma y_loop_nonneg f : forall y b c d r, y_loop f y b c d = Ok r -> 0 <= r.
Proof.
  induction f; intros y b c d r H; [discriminate|].
  unfold y_loop in H; fold y_loop in H. unfold square_w in H. rstep H.
  match goal with R : chk _ _ = Ok _ |- _ => apply chk_ok in R; rewrite in_u256_iff in R; destruct R as [-> R] end.
  match goal with R : (if ?b then _ else _) = Ok r |- _ => destruct b; [inversion R; subst|eapply IHf; eauto] end.
  apply div_nonneg; lia.
Qed.

Lemma calc_y_nonneg amp new a b tg r : calc_y amp new a b tg = Ok r -> 0 <= r.
Proof.
  unfold calc_y, cube_w, w2u. intros H. rstep H.
  match goal with R : y_loop _ _ _ _ _ = Ok _ |- _ => apply y_loop_nonneg in R end.
  match goal with R : pow10_u _ = Ok _ |- _ => apply pow10_u_ok in R end.
  match goal with R : (if ?b then _ else _) = Ok _ |- _ => destruct b; inversion R; subst end.
  apply div_nonneg; lia.
Qed.

Record StNums (amp prec x px y py dx rate ret spread comm ny : Z) : Prop := {
  sm_in : exists s2 sx sy, scale_value (x + dx) prec 18 = Ok s2 /\ scale_value x px 18 = Ok sx /\
     scale_value y py 18 = Ok sy /\ calc_y amp s2 sx sy prec = Ok ny;
  sm_ny : 0 <= ny <= y;
  sm_sum : ret + comm = y - ny;
  sm_comm : comm = Z.quot ((y - ny) * rate) DEC;
  sm_fit : y - ny <= I128_MAX;
  sm_spread : spread = Z.max 0 (dx - (y - ny)) }.

Lemma stable_compute_swap_ok amp prec x px y py dx rate ret spread comm :
  stable_compute_swap amp prec x px y py dx rate = Ok (ret, spread, comm) ->
  exists ny, StNums amp prec x px y py dx rate ret spread comm ny.
Proof.
  unfold stable_compute_swap. intros H. rstep H.
  match goal with R : calc_y _ _ _ _ _ = Ok ?n |- _ => exists n; pose proof (calc_y_nonneg _ _ _ _ _ _ R) end.
  match goal with R : i_mul_dec _ _ = Ok _ |- _ => apply i_mul_dec_ok in R end.
  match goal with R : (if ?b then _ else _) = Ok _ |- _ => rename R into Hs end.
  constructor; auto; try lia.
  - eexists _, _, _. eauto.
  - match type of Hs with (if ?a <? ?b then _ else _) = _ => destruct (Z.ltb_spec a b) end; rstep Hs; lia.
Qed.

Lemma StNums_range amp prec x px y py dx rate ret spread comm ny :
  StNums amp prec x px y py dx rate ret spread comm ny -> 0 <= rate <= DEC ->
  0 <= comm <= y - ny /\ 0 <= ret <= y - ny.
Proof.
  intros [] Hr. assert (DEC > 0) by (unfold DEC; lia).
  assert (0 <= (y - ny) * rate) by nia.
  rewrite quot_nonneg_div in * by lia.
  assert (0 <= (y - ny) * rate / DEC <= y - ny).
  { split; [apply Z.div_pos; lia|]. apply Z.div_le_upper_bound; nia. }
  lia.
Qed.

(** ** Swap *)
Definition l_buy (p : Stable) (offer : Addr) : Addr := if offer =? l_ta p then l_tb p else l_ta p.
Definition l_res (p : Stable) (offer : Addr) : Z := if offer =? l_ta p then l_ra p else l_rb p.
Definition l_oth (p : Stable) (offer : Addr) : Z := if offer =? l_ta p then l_rb p else l_ra p.
Definition l_pof (p : Stable) (offer : Addr) : Z := if offer =? l_ta p then l_preca p else l_precb p.
Definition l_pot (p : Stable) (offer : Addr) : Z := if offer =? l_ta p then l_precb p else l_preca p.
Definition set_l_for (p : Stable) (offer : Addr) (s b : Z) : Stable :=
  if offer =? l_ta p then set_l_res p s b else set_l_res p b s.

Record LSwapEff (e : Env) (self sender offer amt : Z) (mi ms mf : option Z) (w w' : World) (ret : Z)
    (p : Stable) (amp spread comm ny : Z) (w1 w2 w3 : World) : Prop := {
  ls_pool : fget self (w_stable w) = Some p;
  ls_offer : offer = l_ta p \/ offer = l_tb p;
  ls_auth : authed e (Some self) sender = true;
  ls_amp : amp_of p (w_now w) = Ok amp;
  ls_pos : 0 <= l_res p offer /\ 0 <= l_oth p offer /\ 0 <= amt;
  ls_nums : StNums amp (l_prec p) (l_res p offer) (l_pof p offer) (l_oth p offer) (l_pot p offer) amt
     (dec_bps (l_fee p)) ret spread comm ny;
  ls_calc : stable_compute_swap amp (l_prec p) (l_res p offer) (l_pof p offer) (l_oth p offer) (l_pot p offer) amt
     (dec_bps (l_fee p)) = Ok (ret, spread, comm);
  ls_min : forall m, mi = Some m -> m <= ret;
  ls_fee : forall f, mf = Some f -> l_fee p <= f;
  ls_ms : forall s, ms = Some s -> 0 <= s <= l_maxspread p;
  ls_spread : exists q, dec_from_ratio spread (ret + comm) = Ok q /\
     q <= dec_bps (opt_or ms (l_maxspread p));
  ls_in : Moved offer sender self amt w w1;
  ls_out : Moved (l_buy p offer) self sender ret w1 w2;
  ls_com : Moved (l_buy p offer) self (l_feerec p) comm w2 w3;
  ls_end : w' = set_stable w3 (fset self (set_l_for p offer (l_res p offer + amt)
             (l_oth p offer - (ret + comm))) (w_stable w)) }.

Lemma stable_do_swap_ok e self sender offer amt mi ms mf w w' ret :
  stable_do_swap e self sender offer amt mi ms mf w = Ok (ret, w') -> sender <> self ->
  exists p amp spread comm ny w1 w2 w3, LSwapEff e self sender offer amt mi ms mf w w' ret p amp spread comm ny w1 w2 w3.
Proof.
  unfold stable_do_swap. intros H Hs.
  apply mbind_ok in H. destruct H as [p [w0 [H0 H]]].
  apply get_stable_ok in H0. destruct H0 as [Hp ->].
  rstep H.
  match goal with G : (offer =? _) || _ = true |- _ => rename G into Ho end.
  match goal with G : match mf with _ => _ end = true |- _ => rename G into Hf end.
  match goal with G : match ms with _ => _ end = true |- _ => rename G into Hm end.
  remember (offer =? l_ta p) as isa eqn:Ei.
  assert (E1 : (if isa then (l_ra p, l_rb p) else (l_rb p, l_ra p)) = (l_res p offer, l_oth p offer)).
  { unfold l_res, l_oth. rewrite <- Ei. destruct isa; reflexivity. }
  assert (E3 : (if isa then (l_preca p, l_precb p) else (l_precb p, l_preca p)) = (l_pof p offer, l_pot p offer)).
  { unfold l_pof, l_pot. rewrite <- Ei. destruct isa; reflexivity. }
  assert (Eo : offer = l_ta p \/ offer = l_tb p) by (destruct isa; lia).
  assert (E2 : (if isa then (l_ta p, l_tb p) else (l_tb p, l_ta p)) = (offer, l_buy p offer)).
  { unfold l_buy. rewrite <- Ei. destruct isa; f_equal; lia. }
  match goal with R : _ = Ok (ret, w') |- _ => rename R into H end.
  rewrite E1, E3 in H. cbv beta iota zeta in H.
  rstep H.
  match goal with x : (Z * Z * Z)%type |- _ => destruct x as [[rt sp] cm] end.
  match goal with R : _ = Ok (ret, w') |- _ => rename R into H end.
  cbv beta iota zeta in H. rstep H.
  match goal with R : _ = Ok (ret, w') |- _ => rename R into H end.
  rewrite E2 in H. cbv beta iota zeta in H. rstep H. tinv. winv.
  match goal with R : Moved offer sender self amt _ ?wx |- _ => rename R into M1; rename wx into W1 end.
  match goal with R : Moved (l_buy p offer) self sender _ _ ?wx |- _ => rename R into M2; rename wx into W2 end.
  match goal with R : Moved (l_buy p offer) self (l_feerec p) _ _ ?wx |- _ => rename R into M3; rename wx into W3 end.
  match goal with R : assert_max_spread _ _ _ = Ok _ |- _ => unfold assert_max_spread in R; rstep R end.
  match goal with R : stable_compute_swap _ _ _ _ _ _ _ _ = Ok _ |- _ => 
    pose proof (stable_compute_swap_ok _ _ _ _ _ _ _ _ _ _ _ R) as [ny SN] end.
  eexists p, _, sp, cm, ny, W1, W2, W3.
  assert (Erecv : bal W1 offer self - bal w offer self = amt).
  { rewrite (mv_bal _ _ _ _ _ _ M1). rewrite Z.eqb_refl. simpl.
    destruct (Z.eqb_spec self sender); [congruence|]. rewrite Z.eqb_refl. unfold ind. lia. }
  econstructor; eauto; try lia.
  - intros m ->. lia.
  - intros f ->. lia.
  - intros s ->. lia.
  - eexists. split; [eassumption|]. unfold opt_or. destruct ms; lia.
  - unfold set_l_for.
    rewrite (mv_stable _ _ _ _ _ _ M3), (mv_stable _ _ _ _ _ _ M2), (mv_stable _ _ _ _ _ _ M1).
    rewrite Erecv.
    replace (l_oth p offer - (rt + cm)) with (l_oth p offer - cm - rt) by lia.
    destruct (offer =? l_ta p); reflexivity.
Qed.

(** ** Deposit *)
Lemma stable_mint_shares_ok e self to amt w u w' : stable_mint_shares e self to amt w = Ok (u, w') ->
  exists p w1, fget self (w_stable w) = Some p /\ Minted (l_share p) to amt w w1 /\
    fget self (w_stable w') = Some (set_l_total p (l_total p + amt)) /\ w_tok w' = w_tok w1 /\
    (exists a, tadmin w (l_share p) = Some a /\ authed e (Some self) a = true) /\ l_total p + amt <= I128_MAX.
Proof.
  unfold stable_mint_shares. intros H. rstep H. winv. tinv.
  eexists _, _. split; [eassumption|]. split; [eassumption|]. simpl.
  split; [apply fget_set_same|]. split; [auto|]. split; [auto|lia].
Qed.

Lemma stable_burn_shares_ok e self amt w u w' : stable_burn_shares e self amt w = Ok (u, w') ->
  exists p w1, fget self (w_stable w) = Some p /\ Burned (l_share p) self amt w w1 /\
    fget self (w_stable w') = Some (set_l_total p (l_total p - amt)) /\ w_tok w' = w_tok w1.
Proof.
  unfold stable_burn_shares. intros H. rstep H. winv. tinv.
  eexists _, _. split; [eassumption|]. split; [eassumption|]. simpl.
  split; [apply fget_set_same|]. auto.
Qed.

Record LProvEff (e : Env) (self sender da db : Z) (custom mins : option Z) (w w' : World)
    (p : Stable) (amp deca decb newd s : Z) (w1 w2 w3 : World) : Prop := {
  lp_pool : fget self (w_stable w) = Some p;
  lp_auth : authed e (Some self) sender = true;
  lp_pos : 0 < da /\ 0 < db;
  lp_custom : opt_or custom (l_defslip p) <= l_maxslip p;
  lp_min : forall m, mins = Some m -> m <= s;
  lp_amp : amp_of p (w_now w) = Ok amp;
  lp_deca : tdec w (l_ta p) = Some deca;
  lp_decb : tdec w (l_tb p) = Some decb;
  lp_newd : invariant_of amp (l_ra p + da) (l_rb p + db) deca decb = Ok newd;
  lp_shares : stable_shares p amp newd deca decb = Ok s;
  lp_in_a : Moved (l_ta p) sender self da w w1;
  lp_in_b : Moved (l_tb p) sender self db w1 w2;
  lp_mint : Minted (l_share p) sender s w2 w3;
  lp_end : w_tok w' = w_tok w3;
  lp_pool' : fget self (w_stable w') = Some (set_l_res (set_l_total p (l_total p + s))
     (bal w2 (l_ta p) self) (bal w2 (l_tb p) self)) }.

Lemma stable_provide_ok e c self sender da db custom dl mins w u w' :
  stable_provide e c self sender da db custom dl mins w = Ok (u, w') -> sender <> self ->
  (forall p, fget self (w_stable w) = Some p -> l_ta p <> l_tb p) ->
  (forall d, dl = Some d -> w_now w <= d) /\ authed e c sender = true /\
  exists p amp deca decb newd s w1 w2 w3, LProvEff e self sender da db custom mins w w' p amp deca decb newd s w1 w2 w3.
Proof.
  unfold stable_provide. intros H Hs Hne. rstep H. winv.
  split; [assumption|]. split; [assumption|].
  match goal with R : fget self (w_stable w) = Some ?q |- _ => rename q into p; rename R into Hp end.
  tinv.
  match goal with R : Moved (l_ta p) _ _ _ _ ?wx |- _ => rename R into M1; rename wx into W1 end.
  match goal with R : Moved (l_tb p) _ _ _ _ ?wx |- _ => rename R into M2; rename wx into W2 end.
  winv.
  match goal with R : stable_mint_shares _ _ _ _ _ = Ok _ |- _ => apply stable_mint_shares_ok in R; 
    destruct R as [p3 [W4 [Ep3 [Mt [Eend [Etok _]]]]]] end.
  assert (Ep2 : fget self (w_stable W2) = Some p).
  { rewrite (mv_stable _ _ _ _ _ _ M2), (mv_stable _ _ _ _ _ _ M1). assumption. }
  rewrite Ep2 in Ep3. inversion Ep3; subst p3; clear Ep3.
  rewrite Eend in *. 
  match goal with R : Some _ = Some ?q |- _ => inversion R; subst q; clear R end.
  specialize (Hne _ Hp).
  assert (Ba : bal W2 (l_ta p) self - bal w (l_ta p) self = da).
  { rewrite (mv_bal _ _ _ _ _ _ M2), (mv_bal _ _ _ _ _ _ M1). simp_ind.
    destruct (Z.eqb_spec self sender); [congruence|]. simpl. lia. }
  assert (Bb : bal W2 (l_tb p) self - bal w (l_tb p) self = db).
  { rewrite (mv_bal _ _ _ _ _ _ M2), (mv_bal _ _ _ _ _ _ M1). simp_ind.
    destruct (Z.eqb_spec self sender); [congruence|]. simpl. lia. }
  match goal with R : stable_shares p _ ?d ?x ?y = Ok ?s, R0 : amp_of p _ = Ok ?am |- _ =>
    exists p, am, x, y, d, s, W1, W2, W4 end.
  rewrite Ba, Bb in *.
  constructor; auto; try lia.
  - cbn [vpos] in *. lia.
  - unfold opt_or. destruct custom; lia.
  - intros m ->. lia.
  - rewrite (Z.add_comm (l_ra p)), (Z.add_comm (l_rb p)). assumption.
  - simpl. rewrite fget_set_same. reflexivity.
Qed.

(** the new total of the shares is a 128-bit number *)
Lemma stable_provide_fits e c self sender da db custom dl mins w u w' q :
  stable_provide e c self sender da db custom dl mins w = Ok (u, w') ->
  fget self (w_stable w') = Some q -> l_total q <= I128_MAX.
Proof.
  unfold stable_provide. intros H. rstep H. winv. tinv. winv.
  match goal with R : stable_mint_shares _ _ _ _ _ = Ok _ |- _ => apply stable_mint_shares_ok in R;
    destruct R as [p3 [W4 [Ep3 [Mt [Eend [Etok [_ Fit]]]]]]] end.
  match goal with R : fget self (w_stable _) = Some ?r |- fget self _ = Some _ -> _ =>
    rewrite Eend in R; inversion R; subst r end.
  simpl. rewrite fget_set_same. intros Eq. inversion Eq; subst q. simpl. exact Fit.
Qed.

(** ** Withdrawal *)
Record LWdEff (e : Env) (self sender share mina minb : Z) (w w' : World) (a b : Z)
    (p : Stable) (ratio : Z) (w1 w2 w3 w4 : World) : Prop := {
  lw_pool : fget self (w_stable w) = Some p;
  lw_auth : authed e (Some self) sender = true;
  lw_pos : 0 < share /\ 0 < mina /\ 0 < minb;
  lw_total : l_total p <> 0;
  lw_ratio : dec_from_ratio share (l_total p) = Ok ratio;
  lw_a : i_mul_dec (l_ra p) ratio = Ok a;
  lw_b : i_mul_dec (l_rb p) ratio = Ok b;
  lw_min : mina <= a /\ minb <= b;
  lw_in : Moved (l_share p) sender self share w w1;
  lw_burn : Burned (l_share p) self share w1 w2;
  lw_out_a : Moved (l_ta p) self sender a w2 w3;
  lw_out_b : Moved (l_tb p) self sender b w3 w4;
  lw_end : w_tok w' = w_tok w4;
  lw_pool' : fget self (w_stable w') =
     Some (set_l_res (set_l_total p (l_total p - share)) (l_ra p - a) (l_rb p - b)) }.

Lemma stable_withdraw_ok e c self sender share mina minb dl w a b w' :
  stable_withdraw e c self sender share mina minb dl w = Ok ((a, b), w') ->
  (forall d, dl = Some d -> w_now w <= d) /\ authed e c sender = true /\
  exists p ratio w1 w2 w3 w4, LWdEff e self sender share mina minb w w' a b p ratio w1 w2 w3 w4.
Proof.
  unfold stable_withdraw. intros H. rstep H. winv. tinv. destr_pair.
  split; [assumption|]. split; [assumption|].
  match goal with R : fget self (w_stable w) = Some ?q |- _ => rename q into p; rename R into Hp end.
  match goal with R : Moved (l_share p) _ _ _ _ ?wx |- _ => rename R into M1; rename wx into W1 end.
  match goal with R : stable_burn_shares _ _ _ _ = Ok _ |- _ => apply stable_burn_shares_ok in R;
    destruct R as [p3 [W2 [Ep3 [Bn [Eend Etok]]]]] end.
  rewrite (mv_stable _ _ _ _ _ _ M1), Hp in Ep3. inversion Ep3; subst p3; clear Ep3.
  match goal with R : Moved (l_ta p) _ _ _ _ ?wx |- _ => rename R into M3; rename wx into W3 end.
  match goal with R : Moved (l_tb p) _ _ _ _ ?wx |- _ => rename R into M4; rename wx into W4 end.
  match goal with R : fget self (w_stable W4) = Some _ |- _ => rename R into Hp4 end.
  rewrite (mv_stable _ _ _ _ _ _ M4), (mv_stable _ _ _ _ _ _ M3), Eend in Hp4.
  inversion Hp4; subst; clear Hp4.
  eexists p, _, W1, W2, (set_tok W2 (w_tok W3)), (set_tok W2 (w_tok W4)).
  constructor; eauto; try reflexivity.
  - cbn [vpos] in *. lia.
  - lia.
  - lia.
  - eapply Moved_wtok; [exact M3|auto|reflexivity|reflexivity].
  - eapply Moved_wtok; [exact M4|reflexivity|reflexivity|reflexivity].
  - simpl. apply fget_set_same.
Qed.

(** ** The invariant *)
Record StableInv (w : World) (c : Addr) (p : Stable) : Prop := {
  li_ord : l_ta p < l_tb p;
  li_sa : l_share p <> l_ta p;
  li_sb : l_share p <> l_tb p;
  li_adm : tadmin w (l_share p) = Some c;
  li_ra : 0 <= l_ra p <= bal w (l_ta p) c;
  li_rb : 0 <= l_rb p <= bal w (l_tb p) c;
  li_sup : supply w (l_share p) <= l_total p;
  li_tot : 0 <= l_total p;
  li_bps : vbps (l_fee p) && vbps (l_maxslip p) && vbps (l_maxspread p) = true;
  li_amp : l_iamp p = l_namp p /\ l_iampt p = l_nampt p /\ 100 <= l_namp p <= 100000000;
  li_ampt : l_nampt p <= w_now w;
  li_dec : tdec w (l_ta p) = Some (l_preca p) /\ tdec w (l_tb p) = Some (l_precb p) /\
           l_prec p = Z.max (l_preca p) (l_precb p) /\ 0 <= l_preca p <= 18 /\ 0 <= l_precb p <= 18;
  li_fit : l_total p <= I128_MAX }.

Lemma StableInv_UT w w' c p : UT c w w' -> Ext w w' -> StableInv w c p -> StableInv w' c p.
Proof.
  intros U X I. destruct (ut_tok _ _ _ U _ (li_adm _ _ _ I)) as [A S].
  pose proof (ut_bal _ _ _ U (l_ta p)). pose proof (ut_bal _ _ _ U (l_tb p)).
  pose proof (ex_now _ _ X). destruct (li_dec _ _ _ I) as [D1 [D2 D3]].
  pose proof (ex_dec _ _ X _ _ D1). pose proof (ex_dec _ _ X _ _ D2).
  destruct I. constructor; auto; lia.
Qed.

Lemma dec_bps_fee f : vbps f = true -> 0 <= dec_bps f <= DEC.
Proof. unfold vbps, dec_bps, DEC. lia. Qed.

Lemma lswap_inv e self sender offer amt mi ms mf w w' ret p amp sp cm ny w1 w2 w3 :
  LSwapEff e self sender offer amt mi ms mf w w' ret p amp sp cm ny w1 w2 w3 ->
  sender <> self -> StableInv w self p ->
  exists p', fget self (w_stable w') = Some p' /\ StableInv w' self p'.
Proof.
  intros E Hs I. destruct E as [Ep Eof Eau Eamp Epos SN Ecalc Emin Efee Ems Esp Ein Eout Ecom Eend]. subst w'.
  assert (Hf : 0 <= dec_bps (l_fee p) <= DEC).
  { apply dec_bps_fee. pose proof (li_bps _ _ _ I). lia. }
  pose proof (StNums_range _ _ _ _ _ _ _ _ _ _ _ _ SN Hf) as [Rc Rr].
  pose proof (sm_ny _ _ _ _ _ _ _ _ _ _ _ _ SN) as Rn. pose proof (sm_sum _ _ _ _ _ _ _ _ _ _ _ _ SN) as Rs.
  pose proof (li_ord _ _ _ I) as Hord.
  eexists. split; [simpl; apply fget_set_same|].
  assert (Bs : forall t, bal w3 t self >= bal w t self + ind (t =? offer) amt - ind (t =? l_buy p offer) (ret + cm)).
  { intros t. rewrite (mv_bal _ _ _ _ _ _ Ecom), (mv_bal _ _ _ _ _ _ Eout), (mv_bal _ _ _ _ _ _ Ein).
    rewrite (Z.eqb_refl self). rewrite !andb_true_r.
    destruct (Z.eqb_spec self sender); [congruence|]. rewrite !andb_false_r.
    unfold ind. destruct (t =? offer), (t =? l_buy p offer), (self =? l_feerec p); simpl; lia. }
  assert (S3 : forall t, supply w3 t = supply w t).
  { intros t. rewrite (mv_sup _ _ _ _ _ _ Ecom), (mv_sup _ _ _ _ _ _ Eout), (mv_sup _ _ _ _ _ _ Ein). auto. }
  assert (A3 : forall t, tadmin w3 t = tadmin w t).
  { intros t. rewrite (mv_adm _ _ _ _ _ _ Ecom), (mv_adm _ _ _ _ _ _ Eout), (mv_adm _ _ _ _ _ _ Ein). auto. }
  assert (D3 : forall t, tdec w3 t = tdec w t).
  { intros t. rewrite (mv_dec _ _ _ _ _ _ Ecom), (mv_dec _ _ _ _ _ _ Eout), (mv_dec _ _ _ _ _ _ Ein). auto. }
  assert (N3 : w_now w3 = w_now w).
  { rewrite (mv_rest _ _ _ _ _ _ Ecom), (mv_rest _ _ _ _ _ _ Eout), (mv_rest _ _ _ _ _ _ Ein). auto. }
  pose proof (Bs (l_ta p)) as Ba. pose proof (Bs (l_tb p)) as Bb.
  clear Bs. unfold set_l_for, l_res, l_oth, l_buy in *.
  destruct I as [I1 I2 I3 I4 I5 I6 I7 I8 I9 I10 I11 I12 I13].
  assert (K : forall q, l_ta q = l_ta p -> l_tb q = l_tb p -> l_share q = l_share p -> l_total q = l_total p ->
    l_fee q = l_fee p -> l_maxslip q = l_maxslip p -> l_maxspread q = l_maxspread p ->
    l_iamp q = l_iamp p -> l_namp q = l_namp p -> l_iampt q = l_iampt p -> l_nampt q = l_nampt p ->
    l_prec q = l_prec p -> l_preca q = l_preca p -> l_precb q = l_precb p ->
    0 <= l_ra q <= bal w3 (l_ta p) self -> 0 <= l_rb q <= bal w3 (l_tb p) self ->
    StableInv (set_stable w3 (fset self q (w_stable w))) self q).
  { intros q E1 E2 E3 E4 E5 E6 E7 E8 E9 E10 E11 E12 E13 E14 R1 R2.
    constructor; rewrite ?E1, ?E2, ?E3, ?E4, ?E5, ?E6, ?E7, ?E8, ?E9, ?E10, ?E11, ?E12, ?E13, ?E14; auto.
    - rewrite <- I4. apply A3.
    - change (supply w3 (l_share p) <= l_total p). rewrite S3. auto.
    - simpl. lia.
    - destruct I12 as [T1 [T2 T3]]. split; [rewrite <- T1; apply D3|]. split; [rewrite <- T2; apply D3|]. auto. }
  destruct (Z.eqb_spec offer (l_ta p)) as [Eo|No].
  - subst offer. rewrite Z.eqb_refl in *.
    destruct (Z.eqb_spec (l_ta p) (l_tb p)); [lia|].
    destruct (Z.eqb_spec (l_tb p) (l_ta p)); [lia|]. unfold ind in *.
    apply K; try reflexivity; simpl; lia.
  - assert (offer = l_tb p) by tauto. subst offer. rewrite Z.eqb_refl in *.
    destruct (Z.eqb_spec (l_ta p) (l_tb p)); [lia|].
    destruct (Z.eqb_spec (l_tb p) (l_ta p)); [lia|]. unfold ind in *.
    apply K; try reflexivity; simpl; lia.
Qed.

Lemma lprovide_inv e self sender da db custom mins w w' p amp deca decb newd s w1 w2 w3 :
  LProvEff e self sender da db custom mins w w' p amp deca decb newd s w1 w2 w3 ->
  w_now w' = w_now w -> sender <> self -> (forall q, fget self (w_stable w') = Some q -> l_total q <= I128_MAX) ->
  StableInv w self p -> exists p', fget self (w_stable w') = Some p' /\ StableInv w' self p'.
Proof.
  intros E Hnow Hs Fit I. destruct E as [Ep Eau Epos Ecu Emin Eamp Eda Edb Enew Esh Ia Ib Mt Eend Ep'].
  pose proof (Fit _ Ep') as Fn. simpl in Fn.
  eexists. split; [exact Ep'|].
  assert (B2 : forall t, bal w2 t self = bal w t self + ind (t =? l_ta p) da + ind (t =? l_tb p) db).
  { intros t. rewrite (mv_bal _ _ _ _ _ _ Ib), (mv_bal _ _ _ _ _ _ Ia).
    rewrite (Z.eqb_refl self). rewrite !andb_true_r.
    destruct (Z.eqb_spec self sender); [congruence|]. rewrite !andb_false_r. unfold ind. lia. }
  pose proof (mt_bal _ _ _ _ _ Mt) as Mb.
  pose proof (mt_pos _ _ _ _ _ Mt) as Pn.
  pose proof (B2 (l_ta p)) as Ba. pose proof (B2 (l_tb p)) as Bb.
  destruct I as [I1 I2 I3 I4 I5 I6 I7 I8 I9 I10 I11 I12 I13].
  rewrite Z.eqb_refl in Ba. rewrite Z.eqb_refl in Bb.
  destruct (Z.eqb_spec (l_ta p) (l_tb p)); [lia|].
  destruct (Z.eqb_spec (l_tb p) (l_ta p)); [lia|].
  unfold ind in Ba, Bb.
  assert (TD : forall t, tdec w3 t = tdec w t).
  { intros. rewrite (mt_dec _ _ _ _ _ Mt), (mv_dec _ _ _ _ _ _ Ib), (mv_dec _ _ _ _ _ _ Ia). auto. }
  constructor; simpl; auto; rewrite ?(bal_wtok w3 w'), ?(supply_wtok w3 w'), ?(tadmin_wtok w3 w') by auto;
    rewrite ?Mb, ?(mt_sup _ _ _ _ _ Mt), ?(mt_adm _ _ _ _ _ Mt), ?(mv_adm _ _ _ _ _ _ Ib), ?(mv_adm _ _ _ _ _ _ Ia),
      ?(mv_sup _ _ _ _ _ _ Ib), ?(mv_sup _ _ _ _ _ _ Ia); auto; try lia.
  - rewrite Ba. simp_ind. lia.
  - rewrite Bb. simp_ind. lia.
  - rewrite Z.eqb_refl. simpl. lia.
  - unfold tdec in *. rewrite Eend, !TD. auto.
Qed.

Lemma lwithdraw_inv e self sender share mina minb w w' a b p ratio w1 w2 w3 w4 :
  LWdEff e self sender share mina minb w w' a b p ratio w1 w2 w3 w4 ->
  Good w -> w_now w' = w_now w -> sender <> self -> StableInv w self p ->
  exists p', fget self (w_stable w') = Some p' /\ StableInv w' self p'.
Proof.
  intros E G Hnow Hs I. destruct E as [Ep Eau Epos Et Er Ea Eb Emin Ein Ebn Eoa Eob Eend Ep'].
  eexists. split; [exact Ep'|].
  pose proof (good_supply w (l_share p) sender G) as G2.
  pose proof (mv_le _ _ _ _ _ _ Ein) as Ls.
  destruct I as [I1 I2 I3 I4 I5 I6 I7 I8 I9 I10 I11 I12 I13].
  assert (PT : 0 < l_total p) by lia.
  destruct (wd_numbers _ _ _ _ _ (proj1 Epos) PT (proj1 I5) Er Ea) as [Na [La _]].
  destruct (wd_numbers _ _ _ _ _ (proj1 Epos) PT (proj1 I6) Er Eb) as [Nb [Lb _]].
  assert (B4 : forall t, bal w4 t self = bal w t self - ind (t =? l_ta p) a - ind (t =? l_tb p) b).
  { intros t. rewrite (mv_bal _ _ _ _ _ _ Eob), (mv_bal _ _ _ _ _ _ Eoa), (bn_bal _ _ _ _ _ Ebn), (mv_bal _ _ _ _ _ _ Ein).
    rewrite (Z.eqb_refl self). rewrite !andb_true_r.
    destruct (Z.eqb_spec self sender); [congruence|]. rewrite !andb_false_r. unfold ind. lia. }
  assert (S4 : forall t, supply w4 t = supply w t - ind (t =? l_share p) share).
  { intros t. rewrite (mv_sup _ _ _ _ _ _ Eob), (mv_sup _ _ _ _ _ _ Eoa), (bn_sup _ _ _ _ _ Ebn), (mv_sup _ _ _ _ _ _ Ein). auto. }
  assert (A4 : forall t, tadmin w4 t = tadmin w t).
  { intros t. rewrite (mv_adm _ _ _ _ _ _ Eob), (mv_adm _ _ _ _ _ _ Eoa), (bn_adm _ _ _ _ _ Ebn), (mv_adm _ _ _ _ _ _ Ein). auto. }
  assert (TD : forall t, tdec w4 t = tdec w t).
  { intros t. rewrite (mv_dec _ _ _ _ _ _ Eob), (mv_dec _ _ _ _ _ _ Eoa), (bn_dec _ _ _ _ _ Ebn), (mv_dec _ _ _ _ _ _ Ein). auto. }
  assert (Ka : a <= l_ra p) by nia.
  assert (Kb : b <= l_rb p) by nia.
  constructor; simpl; auto; rewrite ?(bal_wtok w4 w'), ?(supply_wtok w4 w'), ?(tadmin_wtok w4 w') by auto;
    rewrite ?B4, ?S4, ?A4; unfold ind; rewrite ?Z.eqb_refl; auto; try lia.
  - destruct (Z.eqb_spec (l_ta p) (l_tb p)); lia.
  - destruct (Z.eqb_spec (l_tb p) (l_ta p)); lia.
  - unfold tdec in *. rewrite Eend, !TD. auto.
Qed.
