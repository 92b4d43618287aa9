(** C202-C204: what a call changes, what it depends on, and which calls can be exchanged.
    [D] below is the record of accesses of the call (Touch.v); [same w1 w2 c y] says that the
    entry of contract [c] under key [y] holds the same in both ledgers (Footprint.v). *)
From Coq Require Import ZArith List Bool Lia.
From Verif Require Import Base FMap Decimal Curve World Token Frame Stake Pool Stable Rewards Vest Factory Router System SysFrame SysInv Script
  TokenProofs PoolProofs SysPool SysSupply Props_Token Props_Pool Props_PoolCases Props_Factory Props_FactoryCases.
From Verif Require Import Touch TouchErase Life TouchCover TouchGrow LifeLemmas TouchLogs TouchCost Props_TouchCases Footprint FootprintSim FootprintFrame.
Import ListNotations.
Open Scope list_scope.
Open Scope Z_scope.

(** the record lists the entry / lists it as written *)
Definition touched (D : list Touch) (c : Addr) (y : Key) : Prop := exists a, In (mkT c y a) D.
Definition stored (D : list Touch) (c : Addr) (y : Key) : Prop := In (mkT c y Put) D.
(** writes to a contract's own instance storage are not recorded apart from its being loaded *)
Definition may_change (D : list Touch) (c : Addr) (y : Key) : Prop := stored D c y \/ (y = YInst /\ touched D c YInst).

Lemma may_touch D c y : may_change D c y -> touched D c y.
Proof. intros [S|[-> T]]; [exists Put; exact S | exact T]. Qed.
Lemma touched_dec D c y : touched D c y \/ ~ touched D c y.
Proof.
  assert (E : forall x : Touch, {TouchCost.entry_of x = (c, y)} + {TouchCost.entry_of x <> (c, y)}) by (intros x; apply TouchCost.entry_dec).
  induction D as [|x D IH]; [right; intros [a []]|]. destruct (E x) as [E1|E1].
  - left. destruct x as [c' y' a]. unfold TouchCost.entry_of in E1. cbn in E1. inversion E1; subst. exists a. left. reflexivity.
  - destruct IH as [[a I]|N]; [left; exists a; right; exact I|]. right. intros [a [I|I]]; [|apply N; exists a; exact I].
    subst x. apply E1. reflexivity.
Qed.
Lemma act_put (a : Act) : a = Put \/ a <> Put.
Proof. destruct a; try (right; discriminate). left; reflexivity. Qed.
Lemma stored_dec D c y : stored D c y \/ ~ stored D c y.
Proof.
  induction D as [|x D IH]; [right; intros []|]. destruct (touched_dec [x] c y) as [[a [E|[]]]|N].
  - subst x. destruct (act_put a) as [->|Na]; [left; left; reflexivity|]. destruct IH as [I|I]; [left; right; exact I | right; intros [J|J]; [congruence | auto]].
  - destruct IH as [I|I]; [left; right; exact I|]. right. intros [J|J]; [apply N; exists Put; left; exact J | auto].
Qed.
Lemma may_dec D c y : may_change D c y \/ ~ may_change D c y.
Proof.
  destruct (stored_dec D c y) as [S|S]; [left; left; exact S|]. destruct (TouchCost.entry_dec (c, y) (c, YInst)) as [E|E].
  - inversion E; subst. destruct (touched_dec D c YInst) as [T|T]; [left; right; auto | right; intros [A|[_ A]]; auto].
  - right. intros [A|[A _]]; [auto | subst; auto].
Qed.

(** ** C202: a call changes only what it records as written *)
Theorem C202_changes_recorded H w e k w' D : reachable H w -> zexec e k (w, []) = Ok (tt, (w', D)) ->
  (forall c y, ~ may_change D c y -> same w w' c y) /\ w_now w' = w_now w /\ w_seq w' = w_seq w.
Proof.
  intros R X. pose proof (reach_good _ _ R) as G.
  assert (B : forall c, fget c (w_code w) = None -> fget c (w_tok w) = None).
  { intros c N. destruct (fget c (w_tok w)) as [k0|] eqn:E; auto. rewrite (gd_ctok _ G _ _ E) in N. discriminate. }
  destruct (exec_framec _ _ _ _ (zexec_exec _ _ _ _ _ X) G) as (_ & _ & N1 & N2 & _). split; [|auto].
  destruct (frm_zexec w B (may_change D) e k w [] tt w' D) as [_ I]; auto.
  - constructor; auto. intros c y _. apply same_refl.
  - intros x I. unfold note. destruct x as [c y a]. cbn [x_at x_key x_act]. assert (T : touched D c y) by (exists a; exact I).
    destruct a; destruct y; try exact Logic.I; try (left; exact I); right; auto.
  - apply (fr_same _ _ _ I).
Qed.
Print Assumptions C202_changes_recorded.
(** every change of a balance is recorded as a write to that balance *)
Corollary C202_balances H w e k w' D t u : reachable H w -> zexec e k (w, []) = Ok (tt, (w', D)) -> bal w' t u <> bal w t u -> In (mkT t (YBal u) Put) D.
Proof.
  intros R X N. destruct (stored_dec D t (YBal u)) as [S|S]; [exact S|]. exfalso. apply N.
  destruct (C202_changes_recorded _ _ _ _ _ _ R X) as [A _]. specialize (A t (YBal u)).
  assert (M : ~ may_change D t (YBal u)) by (intros [M|[M _]]; [auto | discriminate]). specialize (A M). simpl in A. unfold sub in A. unfold bal, tk_balance, fgetd.
  destruct (fget t (w_tok w)) as [k1|], (fget t (w_tok w')) as [k2|]; rewrite ?A; auto; rewrite <- A; auto.
Qed.
Print Assumptions C202_balances.

(** ** C203: the outcome of a call depends on the entries it touches, the ledger's time and number,
    and nothing else.  [w2] is any ledger at all. *)
Lemma depends w1 e k w1' D w2 : zexec e k (w1, []) = Ok (tt, (w1', D)) -> w_now w2 = w_now w1 -> w_seq w2 = w_seq w1 ->
  (forall c y, touched D c y -> same w1 w2 c y) ->
  exists w2', zexec e k (w2, []) = Ok (tt, (w2', D)) /\ w_now w2' = w_now w1' /\ w_seq w2' = w_seq w1' /\
    (forall c y, touched D c y -> same w1' w2' c y).
Proof.
  intros X T S A. destruct (sim_zexec (touched D) e k w1 w2 [] [] tt w1' D) as ([] & w2' & Y & _ & Z).
  - constructor; auto.
  - exact X.
  - intros x I. exists (x_act x). destruct x; exact I.
  - exists w2'. destruct Z. repeat split; auto.
Qed.
Theorem C203_depends_on_touched H w1 e k w1' D w2 : reachable H w1 -> reachable H w2 -> zexec e k (w1, []) = Ok (tt, (w1', D)) ->
  w_now w2 = w_now w1 -> w_seq w2 = w_seq w1 -> (forall c y, touched D c y -> same w1 w2 c y) ->
  exists w2', zexec e k (w2, []) = Ok (tt, (w2', D)) /\
    (forall c y, touched D c y -> same w1' w2' c y) /\ (forall c y, ~ touched D c y -> same w2 w2' c y) /\
    (forall c y, same w1 w2 c y -> same w1' w2' c y).
Proof.
  intros R1 R2 X T S A. destruct (depends _ _ _ _ _ _ X T S A) as (w2' & Y & _ & _ & Z). exists w2'. split; [exact Y|]. split; [exact Z|].
  destruct (C202_changes_recorded _ _ _ _ _ _ R1 X) as [F1 _]. destruct (C202_changes_recorded _ _ _ _ _ _ R2 Y) as [F2 _].
  assert (U : forall c y, ~ touched D c y -> same w2 w2' c y) by (intros c y N; apply F2; intros M; apply N, may_touch, M). split; [exact U|].
  intros c y E. destruct (touched_dec D c y) as [I|N]; [auto|]. apply (same_trans _ w2); [|apply U, N].
  apply (same_trans _ w1); [apply same_sym, F1; intros M; apply N, may_touch, M | exact E].
Qed.
Print Assumptions C203_depends_on_touched.

(** ** C204: two calls, neither of which changes what the other touches, can be exchanged *)
Theorem C204_independent_commute H w ea ka wa Da eb kb wb Db : reachable H w -> e_hash ea = H -> e_hash eb = H ->
  zexec ea ka (w, []) = Ok (tt, (wa, Da)) -> zexec eb kb (w, []) = Ok (tt, (wb, Db)) ->
  (forall c y, touched Da c y -> same w wb c y) -> (forall c y, touched Db c y -> same w wa c y) ->
  exists wab wba, zexec eb kb (wa, []) = Ok (tt, (wab, Db)) /\ zexec ea ka (wb, []) = Ok (tt, (wba, Da)) /\
    (forall c y, same wab wba c y) /\ w_now wab = w_now wba /\ w_seq wab = w_seq wba.
Proof.
  intros R Ha Hb Xa Xb Ia Ib.
  assert (Ra : reachable H wa) by (apply (reach_tx _ _ _ _ _ R Ha (zexec_exec _ _ _ _ _ Xa))).
  assert (Rb : reachable H wb) by (apply (reach_tx _ _ _ _ _ R Hb (zexec_exec _ _ _ _ _ Xb))).
  destruct (C202_changes_recorded _ _ _ _ _ _ R Xa) as (Fa & Na & Sa). destruct (C202_changes_recorded _ _ _ _ _ _ R Xb) as (Fb & Nb & Sb).
  destruct (depends _ _ _ _ _ wa Xb Na Sa Ib) as (wab & Yb & Nab & Sab & Zb).
  destruct (depends _ _ _ _ _ wb Xa Nb Sb Ia) as (wba & Ya & Nba & Sba & Za).
  destruct (C202_changes_recorded _ _ _ _ _ _ Ra Yb) as (Fab & _). destruct (C202_changes_recorded _ _ _ _ _ _ Rb Ya) as (Fba & _).
  exists wab, wba. split; [exact Yb|]. split; [exact Ya|]. split; [|split; congruence].
  intros c y. destruct (touched_dec Db c y) as [Tb|Tb]; destruct (touched_dec Da c y) as [Ta|Ta].
  - apply (same_trans _ wb); [apply same_sym, Zb, Tb|]. apply (same_trans _ w); [apply same_sym, Ia, Ta|].
    apply (same_trans _ wa); [apply Ib, Tb | apply Za, Ta].
  - apply (same_trans _ wb); [apply same_sym, Zb, Tb|]. apply Fba. intros M. apply Ta, may_touch, M.
  - apply (same_trans _ wa); [apply same_sym, Fab; intros M; apply Tb, may_touch, M | apply Za, Ta].
  - apply (same_trans _ wa); [apply same_sym, Fab; intros M; apply Tb, may_touch, M|].
    apply (same_trans _ w); [apply same_sym, Fa; intros M; apply Ta, may_touch, M|].
    apply (same_trans _ wb); [apply Fb; intros M; apply Tb, may_touch, M | apply Fba; intros M; apply Ta, may_touch, M].
Qed.
Print Assumptions C204_independent_commute.
(** in particular two calls whose records show no entry that one writes and the other touches *)
Corollary C204_disjoint_commute H w ea ka wa Da eb kb wb Db : reachable H w -> e_hash ea = H -> e_hash eb = H ->
  zexec ea ka (w, []) = Ok (tt, (wa, Da)) -> zexec eb kb (w, []) = Ok (tt, (wb, Db)) ->
  (forall c y, touched Da c y -> ~ may_change Db c y) -> (forall c y, touched Db c y -> ~ may_change Da c y) ->
  exists wab wba, zexec eb kb (wa, []) = Ok (tt, (wab, Db)) /\ zexec ea ka (wb, []) = Ok (tt, (wba, Da)) /\
    (forall c y, same wab wba c y) /\ w_now wab = w_now wba /\ w_seq wab = w_seq wba.
Proof.
  intros R Ha Hb Xa Xb Ia Ib. eapply C204_independent_commute; eauto.
  - intros c y T. apply (C202_changes_recorded _ _ _ _ _ _ R Xb), Ia, T.
  - intros c y T. apply (C202_changes_recorded _ _ _ _ _ _ R Xa), Ib, T.
Qed.
Print Assumptions C204_disjoint_commute.

(** ** Cases *)
Definition result (sg : list Addr) (k : Call) (w : World) : World := match zexec (env_of sg) k (w, []) with Ok (_, (w', _)) => w' | Err _ => w end.
Definition keyb (y1 y2 : Key) : bool := if TouchCost.entry_dec (0, y1) (0, y2) then true else false.
Definition hits (D : list Touch) (c : Addr) (y : Key) : bool := existsb (fun x => (x_at x =? c) && keyb (x_key x) y) D.
Lemma touched_hits D c y : touched D c y -> hits D c y = true.
Proof.
  intros [a I]. apply existsb_exists. exists (mkT c y a). split; [exact I|]. cbn. rewrite Z.eqb_refl. unfold keyb.
  destruct (TouchCost.entry_dec (0, y) (0, y)); [reflexivity | exfalso; auto].
Qed.
Definition apart (Da Db : list Touch) : bool := forallb (fun x => negb (hits Db (x_at x) (x_key x))) Da.
Lemma apart_spec Da Db : apart Da Db = true -> (forall c y, touched Da c y -> ~ may_change Db c y) /\ (forall c y, touched Db c y -> ~ may_change Da c y).
Proof.
  intros A. unfold apart in A. rewrite forallb_forall in A. assert (N : forall c y, touched Da c y -> touched Db c y -> False).
  { intros c y [a I] T. specialize (A _ I). cbn in A. rewrite (touched_hits _ _ _ T) in A. discriminate. }
  split; intros c y T M; apply may_touch in M; eauto.
Qed.
(** a swap in a pool and an unbonding from its staking contract *)
Definition kswap : Call := CPoolSwap fp1 (-2) 1 1000 None None None None.
Definition kunbond : Call := CUnbond fstake (-2) 4000 0.
Example C204_example : zexec (env_of [-2]) kswap (fW, []) = Ok (tt, (result [-2] kswap fW, record [-2] kswap fW)) /\
  zexec (env_of [-2]) kunbond (fW, []) = Ok (tt, (result [-2] kunbond fW, record [-2] kunbond fW)) /\
  apart (record [-2] kswap fW) (record [-2] kunbond fW) = true /\ negb (hits (record [-2] kunbond fW) fp1 YResA) && hits (record [-2] kswap fW) fp1 YResA = true.
Proof. split; [vm_compute; reflexivity|]. split; [vm_compute; reflexivity|]. split; [vm_compute; reflexivity | vm_compute; reflexivity]. Qed.
Example C204_use : exists wab wba, zexec (env_of [-2]) kunbond (result [-2] kswap fW, []) = Ok (tt, (wab, record [-2] kunbond fW)) /\
  zexec (env_of [-2]) kswap (result [-2] kunbond fW, []) = Ok (tt, (wba, record [-2] kswap fW)) /\ (forall c y, same wab wba c y).
Proof.
  destruct C204_example as (A & B & C & _). apply apart_spec in C as [C1 C2].
  destruct (C204_disjoint_commute xH fW (env_of [-2]) kswap _ _ (env_of [-2]) kunbond _ _ fW_reach eq_refl eq_refl A B C1 C2) as (x & y & X & Y & S & _). eauto.
Qed.
(** two transfers of the same token: both load the token's instance entry, neither changes it *)
Definition agreeb (D : list Touch) (w1 w2 : World) : Prop := Forall (fun x => same w1 w2 (x_at x) (x_key x)) D.
Lemma agreeb_spec D w1 w2 : agreeb D w1 w2 -> forall c y, touched D c y -> same w1 w2 c y.
Proof. unfold agreeb. rewrite Forall_forall. intros A c y [a I]. apply (A _ I). Qed.
Ltac agreed sg k w := unfold agreeb; let D := eval vm_compute in (record sg k w) in
  let E := fresh in assert (E : record sg k w = D) by (vm_compute; reflexivity); rewrite E; clear E;
  repeat (apply Forall_cons; [vm_compute; repeat split|]); apply Forall_nil.
Definition kpay1 : Call := CTransfer 1 (-2) (-7) 500.
Definition kpay2 : Call := CTransfer 1 (-4) (-8) 600.
Example C204_transfers : zexec (env_of [-2]) kpay1 (xW, []) = Ok (tt, (result [-2] kpay1 xW, record [-2] kpay1 xW)) /\
  zexec (env_of [-4]) kpay2 (xW, []) = Ok (tt, (result [-4] kpay2 xW, record [-4] kpay2 xW)) /\
  agreeb (record [-2] kpay1 xW) xW (result [-4] kpay2 xW) /\ agreeb (record [-4] kpay2 xW) xW (result [-2] kpay1 xW).
Proof.
  split; [vm_compute; reflexivity|]. split; [vm_compute; reflexivity|].
  split; [agreed [-2] kpay1 xW | agreed [-4] kpay2 xW].
Qed.
(** swaps in the same pool cannot be exchanged: the reserves are written by one and read by the other *)
Definition kswap2 : Call := CPoolSwap 10 (-2) 2 100000 None None None None.
Example C204_same_pool : exists wa wb wab wba, zexec (env_of [-4]) tswap (xW, []) = Ok (tt, (wa, record [-4] tswap xW)) /\
  zexec (env_of [-2]) kswap2 (xW, []) = Ok (tt, (wb, record [-2] kswap2 xW)) /\
  zexec (env_of [-2]) kswap2 (wa, []) = Ok (tt, (wab, record [-2] kswap2 wa)) /\ zexec (env_of [-4]) tswap (wb, []) = Ok (tt, (wba, record [-4] tswap wb)) /\
  bal wab 2 (-4) <> bal wba 2 (-4) /\ ~ same wab wba 2 (YBal (-4)) /\ stored (record [-4] tswap xW) 10 YResA /\ touched (record [-2] kswap2 xW) 10 YResA.
Proof.
  eexists _, _, _, _. split; [vm_compute; reflexivity|]. split; [vm_compute; reflexivity|]. split; [vm_compute; reflexivity|]. split; [vm_compute; reflexivity|].
  split; [vm_compute; discriminate|]. split; [vm_compute; discriminate|]. split; [vm_compute; auto 40 | exists Look; vm_compute; auto 40].
Qed.
(** the recorded writes of a swap, and a ledger that differs in entries the swap does not touch *)
Example C202_example : zexec (env_of [-4]) tswap (xW, []) = Ok (tt, (result [-4] tswap xW, record [-4] tswap xW)) /\
  ~ may_change (record [-4] tswap xW) 10 YTotal /\ ~ may_change (record [-4] tswap xW) 1 (YBal (-2)) /\ may_change (record [-4] tswap xW) 10 YResA /\
  bal (result [-4] tswap xW) 1 (-4) <> bal xW 1 (-4).
Proof.
  split; [vm_compute; reflexivity|].
  split; [intros M; apply may_touch, touched_hits in M; vm_compute in M; discriminate|].
  split; [intros M; apply may_touch, touched_hits in M; vm_compute in M; discriminate|].
  split; [left; vm_compute; auto 40 | vm_compute; discriminate].
Qed.
Definition xW2 : World := result [-2] (CTransfer xshare (-2) (-7) 999) (result [-2] kpay1 xW).
Example C203_example : reachable xH xW2 /\ w_now xW2 = w_now xW /\ w_seq xW2 = w_seq xW /\
  agreeb (record [-4] tswap xW) xW xW2 /\ bal xW2 1 (-2) <> bal xW 1 (-2).
Proof.
  split.
  { apply (reach_tx xH (result [-2] kpay1 xW) (env_of [-2]) (CTransfer xshare (-2) (-7) 999)); [| reflexivity | vm_compute; reflexivity].
    apply (reach_tx xH xW (env_of [-2]) kpay1); [exact xW_reach | reflexivity | vm_compute; reflexivity]. }
  split; [vm_compute; reflexivity|]. split; [vm_compute; reflexivity|]. split; [|vm_compute; discriminate].
  agreed [-4] tswap xW.
Qed.
