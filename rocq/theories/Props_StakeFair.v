(** Who earns how much of a distribution, compared between stakers: C244. *)
From Coq Require Import ZArith List Bool Lia Permutation.
From Coq Require Import ZifyBool.
From Verif Require Import Base FMap Decimal DecimalProofs World Token TokenProofs Frame Runs Stake Pool PoolProofs
  Stable StableProofs Rewards Vest Factory Router System SysFrame SysInv SysPool SysSupply SysVest SysStake
  Script Props_Token Props_Pool Props_Vest Props_Stake.
Import ListNotations.
Open Scope Z_scope.

(** ** The reward of one stake as a function of its amount and its time *)
(** the age factor, in 10^-18 *)
Definition age_factor (ts d : Z) : Z := let n := (d - ts) / 86400 in if 60 <=? n then 10^18 else n * 10^18 / 60.
Lemma reward_factor amt ts d A T : reward amt ts d A T = amt * A / T * age_factor ts d / 10^18.
Proof.
  unfold reward, age_factor. destruct (60 <=? (d - ts) / 86400); [rewrite Z.div_mul by lia|]; reflexivity.
Qed.
Lemma factor_range ts d : ts <= d -> 0 <= age_factor ts d <= 10^18.
Proof.
  intros L. unfold age_factor. assert (0 <= (d - ts) / 86400) by (apply Z.div_pos; lia). set (n := (d - ts) / 86400) in *.
  destruct (Z.leb_spec 60 n); [lia|]. split; [apply Z.div_pos; lia|apply Z.div_le_upper_bound; lia].
Qed.
Lemma factor_mono ts ts' d : ts' <= ts -> ts <= d -> age_factor ts d <= age_factor ts' d.
Proof.
  intros L1 L2. pose proof (factor_range ts' d ltac:(lia)) as Q. unfold age_factor in *.
  assert ((d - ts) / 86400 <= (d - ts') / 86400) by (apply Z.div_le_mono; lia).
  set (n := (d - ts) / 86400) in *. set (n' := (d - ts') / 86400) in *.
  destruct (Z.leb_spec 60 n), (Z.leb_spec 60 n'); try lia.
  - assert (0 <= n) by (apply Z.div_pos; lia). apply Z.div_le_upper_bound; lia.
  - apply Z.div_le_mono; lia.
Qed.
Lemma reward_mono a ts a' ts' d A T : 0 <= a <= a' -> ts' <= ts -> ts <= d -> 0 <= A -> 0 < T ->
  reward a ts d A T <= reward a' ts' d A T.
Proof.
  intros Ha L1 L2 PA PT. rewrite !reward_factor. apply Z.div_le_mono; [lia|].
  pose proof (factor_mono _ _ _ L1 L2). pose proof (factor_range ts d L2). pose proof (factor_range ts' d ltac:(lia)).
  assert (a * A / T <= a' * A / T) by (apply Z.div_le_mono; [lia|apply Z.mul_le_mono_nonneg_r; lia]).
  assert (0 <= a * A / T) by (apply Z.div_pos; [apply Z.mul_nonneg_nonneg; lia|lia]).
  apply Z.mul_le_mono_nonneg; lia.
Qed.
Lemma div_super x y T : 0 < T -> x / T + y / T <= (x + y) / T <= x / T + y / T + 1.
Proof.
  intros PT. pose proof (Z.div_mod x T ltac:(lia)). pose proof (Z.mod_pos_bound x T PT).
  pose proof (Z.div_mod y T ltac:(lia)). pose proof (Z.mod_pos_bound y T PT).
  split; [apply Z.div_le_lower_bound; nia|]. enough ((x + y) / T < x / T + y / T + 2) by lia.
  apply Z.div_lt_upper_bound; nia.
Qed.
Lemma reward_super a b ts d A T : 0 <= a -> 0 <= b -> ts <= d -> 0 <= A -> 0 < T ->
  reward a ts d A T + reward b ts d A T <= reward (a + b) ts d A T <= reward a ts d A T + reward b ts d A T + 2.
Proof.
  intros Pa Pb L PA PT. rewrite !reward_factor. pose proof (factor_range ts d L) as F. set (f := age_factor ts d) in *.
  rewrite Z.mul_add_distr_r. pose proof (div_super (a * A) (b * A) T PT) as Q.
  assert (0 <= a * A / T) by (apply Z.div_pos; [apply Z.mul_nonneg_nonneg; lia|lia]).
  assert (0 <= b * A / T) by (apply Z.div_pos; [apply Z.mul_nonneg_nonneg; lia|lia]).
  set (x := a * A / T) in *. set (y := b * A / T) in *. set (z := (a * A + b * A) / T) in *.
  pose proof (div_super (x * f) (y * f) (10^18) ltac:(lia)) as Q2.
  assert (z * f <= x * f + y * f + 10^18) by nia. assert (x * f + y * f <= z * f) by nia.
  split; [etransitivity; [apply Q2|apply Z.div_le_mono; lia]|].
  enough (z * f / 10^18 <= (x * f + y * f) / 10^18 + 1) by lia.
  rewrite <- Z.div_add by lia. apply Z.div_le_mono; lia.
Qed.
Lemma reward_none ts d A T : 0 < T -> reward 0 ts d A T = 0.
Proof. intros PT. rewrite reward_factor. now rewrite ?Z.mul_0_l, ?Zdiv_0_l, ?Z.mul_0_l, ?Zdiv_0_l. Qed.

(** ** Lists of stakes *)
(** the amount staked at the time [ts] *)
Definition at_time (ts : Z) (l : list StakeE) : Z := sum_of (fun k => if k_ts k =? ts then k_amt k else 0) l.
(** the stakes are not negative and not younger than [d] *)
Definition fine (d : Z) (l : list StakeE) : Prop := forall k, In k l -> 0 <= k_amt k /\ k_ts k <= d.
Definition paid (d A T : Z) (l : list StakeE) : Z := sum_of (fun k => reward (k_amt k) (k_ts k) d A T) l.

Lemma sum_app {X} (f : X -> Z) l m : sum_of f (l ++ m) = sum_of f l + sum_of f m.
Proof. induction l; simpl; lia. Qed.
Lemma sum_perm {X} (f : X -> Z) l m : Permutation l m -> sum_of f l = sum_of f m.
Proof. induction 1; simpl; lia. Qed.
Lemma sum_nonneg {X} (f : X -> Z) l : (forall a, In a l -> 0 <= f a) -> 0 <= sum_of f l.
Proof. induction l; simpl; intros P; [lia|]. pose proof (P a (or_introl eq_refl)). specialize (IHl (fun b I => P b (or_intror I))). lia. Qed.
Lemma sum_le {X} (f g : X -> Z) l : (forall a, In a l -> f a <= g a) -> sum_of f l <= sum_of g l.
Proof. induction l; simpl; intros P; [lia|]. pose proof (P a (or_introl eq_refl)). specialize (IHl (fun b I => P b (or_intror I))). lia. Qed.
Lemma sum_swap {X Y} (f : X -> Y -> Z) l m : sum_of (fun a => sum_of (f a) m) l = sum_of (fun b => sum_of (fun a => f a b) l) m.
Proof.
  induction l as [|a l IH]; simpl.
  - induction m; simpl; lia.
  - rewrite IH. clear IH. induction m as [|b m IH]; simpl; lia.
Qed.
Lemma sum_filter {X} (p : X -> bool) (f : X -> Z) l : sum_of f l = sum_of f (filter p l) + sum_of f (filter (fun a => negb (p a)) l).
Proof. induction l as [|a l IH]; simpl; [lia|]. destruct (p a); simpl; lia. Qed.
Lemma fine_filter d p l : fine d l -> fine d (filter p l).
Proof. intros F k I. apply filter_In in I. apply F, I. Qed.
Lemma at_nonneg d ts l : fine d l -> 0 <= at_time ts l.
Proof. intros F. apply sum_nonneg. intros k I. pose proof (F k I). destruct (_ =? _); lia. Qed.
Lemma paid_nonneg d A T l : fine d l -> 0 <= A -> 0 < T -> 0 <= paid d A T l.
Proof. intros F PA PT. apply sum_nonneg. intros k I. apply reward_bounds; auto; apply (F k I). Qed.

(** a group of stakes of one time earns at most what one stake of their sum does, and nearly that *)
Lemma paid_group d A T ts l : 0 <= A -> 0 < T -> ts <= d -> (forall k, In k l -> 0 <= k_amt k /\ k_ts k = ts) ->
  paid d A T l <= reward (at_time ts l) ts d A T <= paid d A T l + 2 * Z.of_nat (length l).
Proof.
  intros PA PT L. induction l as [|k l IH]; intros F.
  - unfold paid, at_time; simpl. rewrite reward_none by auto. lia.
  - specialize (IH (fun b I => F b (or_intror I))). destruct (F k (or_introl eq_refl)) as [F1 F2].
    assert (N : 0 <= at_time ts l). { apply (at_nonneg d). intros b I. destruct (F b (or_intror I)). lia. }
    change (at_time ts (k :: l)) with ((if k_ts k =? ts then k_amt k else 0) + at_time ts l).
    change (paid d A T (k :: l)) with (reward (k_amt k) (k_ts k) d A T + paid d A T l).
    rewrite F2, Z.eqb_refl. pose proof (reward_super (k_amt k) (at_time ts l) ts d A T F1 N L PA PT).
    change (length (k :: l)) with (S (length l)). lia.
Qed.

Definition same (ts : Z) (k : StakeE) : bool := k_ts k =? ts.
Lemma same_in ts l k : In k (filter (same ts) l) -> In k l /\ k_ts k = ts.
Proof. intros I. apply filter_In in I. unfold same in I. split; [tauto|lia]. Qed.
Lemma at_same ts l : at_time ts (filter (same ts) l) = at_time ts l.
Proof.
  unfold at_time, same. induction l as [|k l IH]; simpl; [auto|]. destruct (k_ts k =? ts) eqn:E; simpl; rewrite ?E, IH; lia.
Qed.
Lemma at_other ts ts' l : at_time ts' (filter (fun k => negb (same ts k)) l) = if ts' =? ts then 0 else at_time ts' l.
Proof.
  unfold at_time, same. induction l as [|k l IH]; simpl; [destruct (_ =? _); auto|].
  destruct (Z.eqb_spec (k_ts k) ts); simpl; rewrite IH; destruct (Z.eqb_spec ts' ts); destruct (Z.eqb_spec (k_ts k) ts'); lia.
Qed.
Lemma at_absent ts l : ~ In ts (map k_ts l) -> at_time ts l = 0.
Proof.
  unfold at_time. induction l as [|k l IH]; simpl; [auto|]. intros N. destruct (Z.eqb_spec (k_ts k) ts); [tauto|]. rewrite IH by tauto. lia.
Qed.

(** one stake for each time earns at least what any stakes with no more at any time earn *)
Lemma paid_best d A T L : 0 <= A -> 0 < T -> NoDup (map k_ts L) -> forall M, fine d L -> fine d M ->
  (forall ts, at_time ts M <= at_time ts L) -> paid d A T M <= paid d A T L.
Proof.
  intros PA PT. induction L as [|k L IH]; cbn [map]; intros ND M FL FM D.
  - assert (Z0 : forall k, In k M -> k_amt k = 0).
    { intros k I. specialize (D (k_ts k)). change (at_time (k_ts k) []) with 0 in D.
      destruct (in_split _ _ I) as [m1 [m2 ->]]. unfold at_time in D. rewrite sum_app in D. simpl in D. rewrite Z.eqb_refl in D.
      pose proof (at_nonneg d (k_ts k) m1 ltac:(intros b B; apply FM, in_or_app; auto)).
      pose proof (at_nonneg d (k_ts k) m2 ltac:(intros b B; apply FM, in_or_app; simpl; auto)).
      pose proof (FM k I). unfold at_time in *. lia. }
    unfold paid at 1. transitivity (sum_of (fun _ : StakeE => 0) M).
    + apply sum_le. intros k I. rewrite (Z0 k I), reward_none by auto. lia.
    + clear. unfold paid. simpl. induction M; simpl; lia.
  - inversion ND as [|? ? N1 N2]; subst. destruct (FL k (or_introl eq_refl)) as [K1 K2].
    unfold paid at 1. rewrite (sum_filter (same (k_ts k))). fold (paid d A T (filter (same (k_ts k)) M)).
    fold (paid d A T (filter (fun a => negb (same (k_ts k) a)) M)).
    change (paid d A T (k :: L)) with (reward (k_amt k) (k_ts k) d A T + paid d A T L).
    assert (G := proj1 (paid_group d A T (k_ts k) (filter (same (k_ts k)) M) PA PT K2
       ltac:(intros b B; destruct (same_in _ _ _ B) as [B1 B2]; split; [apply (FM b B1)|auto]))).
    rewrite at_same in G. pose proof (D (k_ts k)) as Dk.
    change (at_time (k_ts k) (k :: L)) with ((if k_ts k =? k_ts k then k_amt k else 0) + at_time (k_ts k) L) in Dk.
    rewrite Z.eqb_refl, (at_absent _ _ N1) in Dk. pose proof (at_nonneg d (k_ts k) M FM) as NM.
    pose proof (reward_mono (at_time (k_ts k) M) (k_ts k) (k_amt k) (k_ts k) d A T ltac:(lia) ltac:(lia) K2 PA PT).
    enough (paid d A T (filter (fun a => negb (same (k_ts k) a)) M) <= paid d A T L) by lia.
    apply IH; auto.
    + intros b B. apply FL. right; auto.
    + apply fine_filter; auto.
    + intros ts. rewrite at_other. destruct (Z.eqb_spec ts (k_ts k)) as [->|Ne].
      * rewrite (at_absent _ _ N1). lia.
      * specialize (D ts). change (at_time ts (k :: L)) with ((if k_ts k =? ts then k_amt k else 0) + at_time ts L) in D. destruct (Z.eqb_spec (k_ts k) ts); lia.
Qed.
(** ... and at most two units more for each of the stakes *)
Lemma paid_near d A T L : 0 <= A -> 0 < T -> NoDup (map k_ts L) -> forall M, fine d L -> fine d M ->
  (forall ts, at_time ts L <= at_time ts M) -> paid d A T L <= paid d A T M + 2 * Z.of_nat (length M).
Proof.
  intros PA PT. induction L as [|k L IH]; cbn [map]; intros ND M FL FM D.
  - pose proof (paid_nonneg d A T M FM PA PT). change (paid d A T []) with 0. lia.
  - inversion ND as [|? ? N1 N2]; subst. destruct (FL k (or_introl eq_refl)) as [K1 K2].
    assert (EM : paid d A T M = paid d A T (filter (same (k_ts k)) M) + paid d A T (filter (fun a => negb (same (k_ts k) a)) M)) by apply sum_filter.
    assert (EL : Z.of_nat (length M) = Z.of_nat (length (filter (same (k_ts k)) M)) + Z.of_nat (length (filter (fun a => negb (same (k_ts k) a)) M))).
    { clear. induction M as [|b M IH]; [reflexivity|]. simpl. destruct (same (k_ts k) b); simpl length; lia. }
    change (paid d A T (k :: L)) with (reward (k_amt k) (k_ts k) d A T + paid d A T L).
    assert (G := proj2 (paid_group d A T (k_ts k) (filter (same (k_ts k)) M) PA PT K2
       ltac:(intros b B; destruct (same_in _ _ _ B) as [B1 B2]; split; [apply (FM b B1)|auto]))).
    rewrite at_same in G. pose proof (D (k_ts k)) as Dk.
    change (at_time (k_ts k) (k :: L)) with ((if k_ts k =? k_ts k then k_amt k else 0) + at_time (k_ts k) L) in Dk.
    rewrite Z.eqb_refl, (at_absent _ _ N1) in Dk.
    pose proof (reward_mono (k_amt k) (k_ts k) (at_time (k_ts k) M) (k_ts k) d A T ltac:(lia) ltac:(lia) K2 PA PT).
    enough (paid d A T L <= paid d A T (filter (fun a => negb (same (k_ts k) a)) M) + 2 * Z.of_nat (length (filter (fun a => negb (same (k_ts k) a)) M))) by lia.
    apply IH; auto.
    + intros b B. apply FL. right; auto.
    + apply fine_filter; auto.
    + intros ts. rewrite at_other. destruct (Z.eqb_spec ts (k_ts k)) as [->|Ne].
      * rewrite (at_absent _ _ N1). lia.
      * specialize (D ts). change (at_time ts (k :: L)) with ((if k_ts k =? ts then k_amt k else 0) + at_time ts L) in D. destruct (Z.eqb_spec (k_ts k) ts); lia.
Qed.

(** ** What users can claim, distribution by distribution *)
Definition one_day (s : Stake) (h : fmap Z) (u d : Z) : Z :=
  if last_claim s u <? d then
    match fget d h, fget d (s_tsh s) with
    | Some A, Some T => if T =? 0 then 0 else paid d A T (stakes_of s u)
    | _, _ => 0 end else 0.
Lemma claim_days H w c s u rt v h : reachable H w -> stake_at w c s -> claimable w c u rt v -> fget rt (s_rh s) = Some h ->
  v = sum_of (one_day s h u) (fkeys h) /\
  (forall d A T, fget d h = Some A -> fget d (s_tsh s) = Some T -> 0 < T -> last_claim s u < d -> fine d (stakes_of s u)).
Proof.
  intros R E C Eh. destruct (claimable_pending _ _ _ _ _ _ _ R E C) as [_ [Hp _]].
  pose proof (reach_stake _ _ R _ _ E) as I.
  destruct (pending_formula _ _ _ _ _ _ _ I ltac:(apply (reach_now _ _ R)) Eh Hp) as [Q [B _]]. split; [exact Q|].
  intros d A T E1 E2 PT L k K. split; [|eapply B; eauto].
  unfold stakes_of in K. destruct (fget u (s_users s)) as [b|] eqn:Eb; [|destruct K]. apply fget_in in Eb.
  pose proof (su_stakes _ _ (sv_user _ _ _ I _ _ Eb) k K). lia.
Qed.

Lemma hist_range H w c s rt h d A : reachable H w -> stake_at w c s -> fget rt (s_rh s) = Some h -> fget d h = Some A -> 0 <= A.
Proof.
  intros R E Eh Ed. pose proof (reach_stake _ _ R _ _ E) as I. destruct (sv_hist _ _ _ I _ _ Eh) as [_ B]. destruct (B _ _ Ed). lia.
Qed.
Lemma total_range H w c s d T : reachable H w -> stake_at w c s -> fget d (s_tsh s) = Some T -> 0 <= T.
Proof.
  intros R E Ed. pose proof (reach_stake _ _ R _ _ E) as I. destruct (sv_tsh _ _ _ I _ _ Ed). lia.
Qed.
Lemma claim_hist H w c s u rt v : reachable H w -> stake_at w c s -> claimable w c u rt v -> exists h, fget rt (s_rh s) = Some h.
Proof.
  intros R E C. destruct (claimable_pending _ _ _ _ _ _ _ R E C) as [Id _]. pose proof (reach_stake _ _ R _ _ E) as I.
  pose proof (proj1 (sv_rh _ _ _ I rt) Id) as F. unfold fmem in F. destruct (fget rt (s_rh s)) as [h|]; [eauto|discriminate].
Qed.

(** ** C244 *)
(** Whoever has for each stake of [u] one that is at least as large and as old, and has not claimed
    later, can claim at least as much. *)
Theorem C244_more_and_older_earns_more H w c s rt u v x y mine extra : reachable H w -> stake_at w c s ->
  claimable w c u rt x -> claimable w c v rt y -> last_claim s v <= last_claim s u ->
  Permutation (stakes_of s v) (mine ++ extra) ->
  Forall2 (fun a b => k_amt a <= k_amt b /\ k_ts b <= k_ts a) (stakes_of s u) mine ->
  x <= y.
Proof.
  intros R E Cu Cv L Pm F2. destruct (claim_hist _ _ _ _ _ _ _ R E Cu) as [h Eh].
  destruct (claim_days _ _ _ _ _ _ _ _ R E Cu Eh) as [-> Bu]. destruct (claim_days _ _ _ _ _ _ _ _ R E Cv Eh) as [-> Bv].
  apply sum_le. intros d _. unfold one_day. destruct (Z.ltb_spec (last_claim s u) d) as [Lu|Lu].
  - destruct (Z.ltb_spec (last_claim s v) d); [|lia].
    destruct (fget d h) as [A|] eqn:EA; [|lia]. destruct (fget d (s_tsh s)) as [T|] eqn:ET; [|lia].
    destruct (Z.eqb_spec T 0); [lia|]. pose proof (hist_range _ _ _ _ _ _ _ _ R E Eh EA). pose proof (total_range _ _ _ _ _ _ R E ET).
    assert (PT : 0 < T) by lia. pose proof (Bu _ _ _ EA ET PT Lu) as FU. pose proof (Bv _ _ _ EA ET PT ltac:(lia)) as FV.
    unfold paid at 2. rewrite (sum_perm _ _ _ Pm), sum_app.
    assert (N : 0 <= paid d A T extra).
    { apply paid_nonneg; auto. intros k I. apply FV. eapply Permutation_in; [apply Permutation_sym, Pm|]. apply in_or_app; auto. }
    fold (paid d A T extra). enough (paid d A T (stakes_of s u) <= paid d A T mine) by (unfold paid at 2 in H3; lia).
    clear - F2 FU PT H1. induction F2 as [|a b l m Q F2 IH]; [unfold paid; simpl; lia|].
    change (reward (k_amt a) (k_ts a) d A T + paid d A T l <= reward (k_amt b) (k_ts b) d A T + paid d A T m).
    destruct (FU a (or_introl eq_refl)). pose proof (reward_mono (k_amt a) (k_ts a) (k_amt b) (k_ts b) d A T ltac:(lia) ltac:(lia) ltac:(lia) H1 PT).
    specialize (IH (fun k I => FU k (or_intror I))). lia.
  - destruct (Z.ltb_spec (last_claim s v) d) as [Lv|]; [|lia].
    destruct (fget d h) as [A|] eqn:EA; [|lia]. destruct (fget d (s_tsh s)) as [T|] eqn:ET; [|lia].
    destruct (Z.eqb_spec T 0); [lia|]. pose proof (hist_range _ _ _ _ _ _ _ _ R E Eh EA). pose proof (total_range _ _ _ _ _ _ R E ET).
    assert (PT : 0 < T) by lia. apply paid_nonneg; auto. apply (Bv _ _ _ EA ET PT Lv).
Qed.
Print Assumptions C244_more_and_older_earns_more.

(** the stakes of several users, one after the other *)
Definition all_stakes (s : Stake) (q : list (Addr * Z)) : list StakeE := flat_map (fun a => stakes_of s (fst a)) q.

Lemma at_flat s ts q : at_time ts (all_stakes s q) = sum_of (fun a => at_time ts (stakes_of s (fst a))) q.
Proof. unfold all_stakes. induction q as [|a q IH]; [reflexivity|]. simpl. unfold at_time at 1. rewrite sum_app. fold (at_time ts (flat_map (fun a => stakes_of s (fst a)) q)). rewrite IH. reflexivity. Qed.
Lemma paid_flat s d A T q : paid d A T (all_stakes s q) = sum_of (fun a => paid d A T (stakes_of s (fst a))) q.
Proof. unfold all_stakes. induction q as [|a q IH]; [reflexivity|]. simpl. unfold paid at 1. rewrite sum_app. fold (paid d A T (flat_map (fun a => stakes_of s (fst a)) q)). rewrite IH. reflexivity. Qed.
Lemma fine_flat s d q : (forall a, In a q -> fine d (stakes_of s (fst a))) -> fine d (all_stakes s q).
Proof. intros F k I. apply in_flat_map in I. destruct I as [a [Ia Ik]]. exact (F a Ia k Ik). Qed.
Lemma sum_days s h q : forall l, (forall a, In a q -> snd a = sum_of (one_day s h (fst a)) l) ->
  sum_of snd q = sum_of (fun d => sum_of (fun a => one_day s h (fst a) d) q) l.
Proof.
  intros l F. rewrite <- (sum_swap (fun a d => one_day s h (fst a) d) q l). induction q as [|a q IH]; simpl; [lia|].
  rewrite (F a (or_introl eq_refl)). rewrite (IH (fun b I => F b (or_intror I))). reflexivity.
Qed.

(** Splitting stakes over accounts (or over several entries of one) gains nothing: let [u] have at most one
    stake of each time, and let the users of [q] together have no more than [u] at any time.  If none
    of them claimed before [u] did, they can claim no more than [u] all together. *)
Theorem C244_splitting_gains_nothing H w c s rt u x q : reachable H w -> stake_at w c s -> claimable w c u rt x ->
  Forall (fun a => claimable w c (fst a) rt (snd a) /\ last_claim s u <= last_claim s (fst a)) q ->
  NoDup (map k_ts (stakes_of s u)) -> (forall ts, at_time ts (all_stakes s q) <= at_time ts (stakes_of s u)) ->
  sum_of snd q <= x.
Proof.
  intros R E Cu Fq ND D. destruct (claim_hist _ _ _ _ _ _ _ R E Cu) as [h Eh]. rewrite Forall_forall in Fq.
  destruct (claim_days _ _ _ _ _ _ _ _ R E Cu Eh) as [-> Bu].
  rewrite (sum_days s h q (fkeys h)) by (intros a Ia; destruct (Fq a Ia) as [Ca _]; apply (claim_days _ _ _ _ _ _ _ _ R E Ca Eh)).
  apply sum_le. intros d _.
  destruct (fget d h) as [A|] eqn:EA.
  2:{ transitivity (sum_of (fun _ : Addr * Z => 0) q); [apply sum_le; intros a _|]; unfold one_day; rewrite EA.
      - destruct (_ <? _); lia. - destruct (_ <? _); clear; induction q; simpl; lia. }
  destruct (fget d (s_tsh s)) as [T|] eqn:ET.
  2:{ transitivity (sum_of (fun _ : Addr * Z => 0) q); [apply sum_le; intros a _|]; unfold one_day; rewrite EA, ET.
      - destruct (_ <? _); lia. - destruct (_ <? _); clear; induction q; simpl; lia. }
  destruct (Z.eq_dec T 0) as [->|NT].
  { transitivity (sum_of (fun _ : Addr * Z => 0) q); [apply sum_le; intros a _|]; unfold one_day; rewrite EA, ET; simpl.
    - destruct (_ <? _); lia. - destruct (_ <? _); clear; induction q; simpl; lia. }
  pose proof (hist_range _ _ _ _ _ _ _ _ R E Eh EA) as PA. pose proof (total_range _ _ _ _ _ _ R E ET). assert (PT : 0 < T) by lia.
  set (qd := filter (fun a => last_claim s (fst a) <? d) q).
  assert (Eq : sum_of (fun a => one_day s h (fst a) d) q = paid d A T (all_stakes s qd)).
  { rewrite paid_flat. subst qd. clear - EA ET NT. unfold Addr in *. induction q as [|a q IH]; [reflexivity|]. cbn [sum_of filter]. rewrite IH.
    unfold one_day. rewrite EA, ET. destruct (Z.eqb_spec T 0); [lia|]. destruct (last_claim s (fst a) <? d); cbn [sum_of]; lia. }
  rewrite Eq. assert (Iq : forall a, In a qd -> In a q /\ last_claim s (fst a) < d) by (intros a Ia; apply filter_In in Ia; lia || (destruct Ia; split; [auto|lia])).
  destruct (Z.ltb_spec (last_claim s u) d) as [Lu|Lu].
  - unfold one_day. destruct (Z.ltb_spec (last_claim s u) d); [|lia]. rewrite EA, ET. destruct (Z.eqb_spec T 0); [lia|].
    assert (FF : forall a, In a q -> forall k, In k (stakes_of s (fst a)) -> 0 <= k_amt k).
    { intros a Ia k K. pose proof (reach_stake _ _ R _ _ E) as I. unfold stakes_of in K. destruct (fget (fst a) (s_users s)) as [b|] eqn:Eb; [|destruct K].
      apply fget_in in Eb. pose proof (su_stakes _ _ (sv_user _ _ _ I _ _ Eb) k K). lia. }
    apply paid_best; auto.
    + eapply Bu; eauto.
    + apply fine_flat. intros a Ia. destruct (Iq a Ia) as [I1 I2]. destruct (Fq a I1) as [Ca _].
      destruct (claim_days _ _ _ _ _ _ _ _ R E Ca Eh) as [_ Ba]. eapply Ba; eauto.
    + intros ts. etransitivity; [|apply D]. rewrite !at_flat. subst qd. clear - FF. unfold Addr in *. induction q as [|a q IH]; simpl; [lia|].
      specialize (IH (fun b I => FF b (or_intror I))). assert (0 <= at_time ts (stakes_of s (fst a))).
      { apply sum_nonneg. intros k K. pose proof (FF a (or_introl eq_refl) k K). destruct (_ =? _); lia. }
      destruct (_ <? d); simpl; lia.
  - assert (qd = []) as ->. { destruct qd as [|a l]; [auto|]. destruct (Iq a (or_introl eq_refl)) as [I1 I2]. destruct (Fq a I1). unfold Addr in *. lia. }
    unfold paid, all_stakes, one_day; simpl. destruct (Z.ltb_spec (last_claim s u) d); lia.
Qed.
Print Assumptions C244_splitting_gains_nothing.

(** ... and costs little: if they have together at least what [u] has at each time and claimed no later, they can
    claim all but two units for each of their stakes and each distribution. *)
Theorem C244_splitting_costs_little H w c s rt u x q h : reachable H w -> stake_at w c s -> claimable w c u rt x ->
  Forall (fun a => claimable w c (fst a) rt (snd a) /\ last_claim s (fst a) <= last_claim s u) q ->
  NoDup (map k_ts (stakes_of s u)) -> (forall ts, at_time ts (stakes_of s u) <= at_time ts (all_stakes s q)) ->
  fget rt (s_rh s) = Some h ->
  x <= sum_of snd q + 2 * Z.of_nat (length (all_stakes s q)) * Z.of_nat (length h).
Proof.
  intros R E Cu Fq ND D Eh. rewrite Forall_forall in Fq.
  destruct (claim_days _ _ _ _ _ _ _ _ R E Cu Eh) as [-> Bu].
  rewrite (sum_days s h q (fkeys h)) by (intros a Ia; destruct (Fq a Ia) as [Ca _]; apply (claim_days _ _ _ _ _ _ _ _ R E Ca Eh)).
  replace (length h) with (length (fkeys h)) by (unfold fkeys; apply map_length).
  assert (Dy : forall d, one_day s h u d <= sum_of (fun a => one_day s h (fst a) d) q + 2 * Z.of_nat (length (all_stakes s q))).
  { intros d. assert (NN : 0 <= sum_of (fun a => one_day s h (fst a) d) q).
    { apply sum_nonneg. intros a Ia. destruct (Fq a Ia) as [Ca _]. destruct (claim_days _ _ _ _ _ _ _ _ R E Ca Eh) as [_ Ba].
      unfold one_day. destruct (Z.ltb_spec (last_claim s (fst a)) d); [|lia].
      destruct (fget d h) as [A|] eqn:EA; [|lia]. destruct (fget d (s_tsh s)) as [T|] eqn:ET; [|lia]. destruct (Z.eqb_spec T 0); [lia|].
      pose proof (hist_range _ _ _ _ _ _ _ _ R E Eh EA). pose proof (total_range _ _ _ _ _ _ R E ET).
      assert (PT : 0 < T) by lia. apply paid_nonneg; auto. eapply Ba; eauto. }
    unfold one_day at 1. destruct (Z.ltb_spec (last_claim s u) d) as [Lu|Lu]; [|lia].
    destruct (fget d h) as [A|] eqn:EA; [|lia]. destruct (fget d (s_tsh s)) as [T|] eqn:ET; [|lia]. destruct (Z.eqb_spec T 0) as [|NT]; [lia|].
    pose proof (hist_range _ _ _ _ _ _ _ _ R E Eh EA) as PA. pose proof (total_range _ _ _ _ _ _ R E ET). assert (PT : 0 < T) by lia.
    assert (Eq : sum_of (fun a => one_day s h (fst a) d) q = paid d A T (all_stakes s q)).
    { rewrite paid_flat. clear - EA ET NT Fq Lu. unfold Addr in *. induction q as [|a q IH]; [reflexivity|]. cbn [sum_of].
      rewrite (IH (fun b I => Fq b (or_intror I))). unfold one_day. rewrite EA, ET.
      destruct (Z.eqb_spec T 0); [lia|]. destruct (Fq a (or_introl eq_refl)) as [_ La]. destruct (Z.ltb_spec (last_claim s (fst a)) d); lia. }
    rewrite Eq. apply paid_near; auto.
    - eapply Bu; eauto.
    - apply fine_flat. intros a Ia. destruct (Fq a Ia) as [Ca La].
      destruct (claim_days _ _ _ _ _ _ _ _ R E Ca Eh) as [_ Ba]. eapply Ba; eauto. lia. }
  generalize (fkeys h). induction l as [|d l IH]; [simpl; lia|]. specialize (Dy d).
  change (sum_of (one_day s h u) (d :: l)) with (one_day s h u d + sum_of (one_day s h u) l).
  change (length (d :: l)) with (S (length l)). simpl sum_of. nia.
Qed.
Print Assumptions C244_splitting_costs_little.
