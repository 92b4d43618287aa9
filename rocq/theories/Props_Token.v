(** Properties of the token contract: C01-C05. *)
From Coq Require Import ZArith List Bool Lia.
From Coq Require Import ZifyBool.
From Verif Require Import Base FMap Decimal Curve World Token TokenProofs Frame Stake Pool PoolProofs
  Stable Rewards Vest Factory Router System SysFrame SysInv Script.
Import ListNotations.
Open Scope Z_scope.

(** ** Histories of calls to one token
    Every entry point that changes a token, by any transaction and any invoking contract;
    failing calls are rolled back.  [OpClock] advances the ledger. *)
Inductive TokOp :=
| OpMint (to amt : Z) | OpSetAdmin (new : Z) | OpApprove (from sp amt ex : Z)
| OpTransfer (from to amt : Z) | OpTransferFrom (sp from to amt : Z)
| OpBurn (from amt : Z) | OpBurnFrom (sp from amt : Z).

Definition tok_op (e : Env) (c : option Addr) (t : Addr) (o : TokOp) : ST World unit :=
  match o with
  | OpMint to amt => tok_mint e c t to amt
  | OpSetAdmin n => tok_set_admin e c t n
  | OpApprove f s a x => tok_approve e c t f s a x
  | OpTransfer f to a => tok_transfer e c t f to a
  | OpTransferFrom s f to a => tok_transfer_from e c t s f to a
  | OpBurn f a => tok_burn e c t f a
  | OpBurnFrom s f a => tok_burn_from e c t s f a
  end.

(** Amounts a successful operation creates and destroys, read off its arguments. *)
Definition op_minted (o : TokOp) : Z := match o with OpMint _ a => a | _ => 0 end.
Definition op_burned (o : TokOp) : Z := match o with OpBurn _ a | OpBurnFrom _ _ a => a | _ => 0 end.
(** Amount a successful operation pulls from [from] through [sp]'s allowance. *)
Definition op_pulled (from sp : Z) (o : TokOp) : Z :=
  match o with
  | OpTransferFrom s f _ a | OpBurnFrom s f a => if (s =? sp) && (f =? from) then a else 0
  | _ => 0
  end.
Definition op_approves (from sp : Z) (o : TokOp) : bool :=
  match o with OpApprove f s _ _ => (f =? from) && (s =? sp) | _ => false end.

Inductive TokEvent := TCall (e : Env) (c : option Addr) (o : TokOp) | TClock (now seq : Z).

(** One event: the new ledger and whether a call succeeded. *)
Definition tok_event (t : Addr) (w : World) (ev : TokEvent) : World * bool :=
  match ev with
  | TCall e c o => match tok_op e c t o w with Ok (_, w') => (w', true) | Err _ => (w, false) end
  | TClock n s => if (w_now w <=? n) && (w_seq w <=? s) then (set_time w n s, false) else (w, false)
  end.

(** Run a history, adding up [f o] over the successful calls. *)
Fixpoint tok_hist (t : Addr) (f : TokOp -> Z) (w : World) (l : list TokEvent) : World * Z :=
  match l with
  | [] => (w, 0)
  | ev :: tl =>
      let (w1, ok) := tok_event t w ev in
      let (w2, s) := tok_hist t f w1 tl in
      (w2, (match ev with TCall _ _ o => if ok then f o else 0 | _ => 0 end) + s)
  end.

(** Sum of the balances of the accounts in [l], and what it means that [l] lists all holders. *)
Definition holders (w : World) (t : Addr) (l : list Addr) : Prop :=
  NoDup l /\ forall a, bal w t a <> 0 -> In a l.
Definition total_of (w : World) (t : Addr) (l : list Addr) : Z := zsum (bal w t) l.

(** The allowance the ledger currently honours: the stored amount unless it has expired. *)
Definition live_allowance (w : World) (t from sp : Addr) : Z :=
  match fget t (w_tok w) with
  | Some k => match tk_allow_entry from sp k with
              | Some (amt, ex) => if w_seq w <=? ex then amt else 0
              | None => 0
              end
  | None => 0
  end.

Lemma live_read w t k from sp : fget t (w_tok w) = Some k ->
  live_allowance w t from sp = fst (tk_read_allowance (w_seq w) from sp k).
Proof.
  unfold live_allowance, tk_read_allowance. intros ->.
  destruct (tk_allow_entry from sp k) as [[a x]|]; auto.
  destruct (Z.leb_spec (w_seq w) x), (Z.ltb_spec x (w_seq w)); auto; lia.
Qed.

(** ** Effect of one operation on the token's storage *)
Record TkOk (k : Token) : Prop := {
  to_range : forall a, 0 <= tk_balance a k <= I128_MAX;
  to_sorted : fsorted (t_bal k);
  to_allow : forall f s a x, tk_allow_entry f s k = Some (a, x) -> 0 <= a }.

Record OpEff (e : Env) (c : option Addr) (seq : Z) (o : TokOp) (k k' : Token) : Prop := {
  oe_pos : 0 <= op_minted o /\ 0 <= op_burned o /\ forall f s, 0 <= op_pulled f s o;
  oe_supply : tk_supply k' = tk_supply k + op_minted o - op_burned o;
  oe_ok : TkOk k -> TkOk k';
  oe_lower : TkOk k -> forall a, tk_balance a k' < tk_balance a k -> authed e c a = true \/
     exists sp, op_pulled a sp o = tk_balance a k - tk_balance a k' /\ authed e c sp = true /\
       tk_balance a k - tk_balance a k' <= fst (tk_read_allowance seq a sp k);
  oe_admin : t_admin k' <> t_admin k \/ 0 < op_minted o -> authed e c (t_admin k) = true;
  oe_allow : forall f s, op_approves f s o = false ->
     op_pulled f s o <= fst (tk_read_allowance seq f s k) \/ op_pulled f s o = 0;
  oe_entry : forall f s, op_approves f s o = false ->
     tk_allow_entry f s k' = tk_allow_entry f s k /\ op_pulled f s o = 0 \/
     tk_allow_entry f s k' = Some (fst (tk_read_allowance seq f s k) - op_pulled f s o, snd (tk_read_allowance seq f s k)) /\
       0 < op_pulled f s o <= fst (tk_read_allowance seq f s k) }.

Lemma write_ok a x k : TkOk k -> 0 <= x <= I128_MAX -> TkOk (tk_write_balance a x k).
Proof.
  intros [R So Al] Hx. constructor.
  - intros b. rewrite tk_balance_write. destruct (b =? a); auto.
  - apply fsorted_set, So.
  - exact Al.
Qed.

Lemma tok_op_eff e c t o w u w' : tok_op e c t o w = Ok (u, w') ->
  exists k k', TokUpd t k k' w w' /\ OpEff e c (w_seq w) o k k'.
Proof.
  destruct o; simpl; intros H.
  - apply tok_mint_ok in H. destruct H as [k [A [P [U F]]]]. eexists _, _. split; [exact U|].
    constructor; simpl; auto; try (intros; lia).
    + repeat split; auto; lia.
    + change (tk_supply (tk_write_balance to (tk_balance to k + amt) k) = tk_supply k + amt - 0). rewrite tk_supply_write. lia.
    + intros O. destruct (write_ok to (tk_balance to k + amt) k O ltac:(pose proof (to_range _ O to); lia)) as [R So Al].
      constructor; auto.
    + intros O a. change (tk_balance a (tk_write_balance to (tk_balance to k + amt) k) < tk_balance a k -> authed e c a = true \/
        exists sp, 0 = tk_balance a k - tk_balance a (tk_write_balance to (tk_balance to k + amt) k) /\ authed e c sp = true /\
        tk_balance a k - tk_balance a (tk_write_balance to (tk_balance to k + amt) k) <= fst (tk_read_allowance (w_seq w) a sp k)).
      rewrite tk_balance_write. destruct (Z.eqb_spec a to); subst; lia.
  - apply tok_set_admin_ok in H. destruct H as [k [A U]]. eexists _, _. split; [exact U|].
    constructor; simpl; auto; try (intros; lia).
    + repeat split; auto; lia.
    + unfold tk_supply; simpl. lia.
    + intros [R So Al]. constructor; auto.
    + intros O a. change (tk_balance a k < tk_balance a k -> authed e c a = true \/
        exists sp, 0 = tk_balance a k - tk_balance a k /\ authed e c sp = true /\ 
        tk_balance a k - tk_balance a k <= fst (tk_read_allowance (w_seq w) a sp k)). lia.
  - apply tok_approve_ok in H. destruct H as [A [P [k [k' [W U]]]]]. exists k, k'. split; [exact U|].
    apply tk_write_allowance_ok in W. destruct W as [L [Ad [D [B [M [R E]]]]]].
    assert (Bk : forall a, tk_balance a k' = tk_balance a k) by (intros; unfold tk_balance; rewrite B; reflexivity).
    constructor; simpl; auto; try (intros; lia).
    + repeat split; auto; lia.
    + unfold tk_supply. rewrite B. lia.
    + intros [R1 So Al]. constructor; [intros; rewrite Bk; auto|rewrite B; auto|].
      intros f s a x. rewrite E. destruct ((f =? from) && (s =? sp)); [intros Q; inversion Q; lia|eauto].
    + intros O a. rewrite Bk. lia.
    + intros f s Q. left. rewrite E. split; auto.
      replace ((f =? from) && (s =? sp)) with false; auto. destruct (Z.eqb_spec f from), (Z.eqb_spec s sp); simpl in *; auto.
      subst. rewrite !Z.eqb_refl in Q. discriminate.
  - apply tok_transfer_ok in H. destruct H as [A [k [k' [U [T Al]]]]]. exists k, k'. split; [exact U|].
    assert (En : forall f s, tk_allow_entry f s k' = tk_allow_entry f s k) by (intros; unfold tk_allow_entry; rewrite Al; reflexivity).
    pose proof (te_pos _ _ _ _ _ T).
    constructor; simpl; auto; try (intros; lia).
    + repeat split; auto; lia.
    + rewrite (te_sup _ _ _ _ _ T). lia.
    + intros [R So Al']. constructor; [|apply (te_sorted _ _ _ _ _ T So)|intros f s a x; rewrite En; eauto].
      intros a. rewrite (te_bal _ _ _ _ _ T). pose proof (te_le _ _ _ _ _ T). pose proof (te_fit _ _ _ _ _ T).
      rewrite (te_bal _ _ _ _ _ T) in H1. unfold ind in *. pose proof (R a).
      destruct (Z.eqb_spec a from), (Z.eqb_spec a to), (Z.eqb_spec to from); try congruence; subst; rewrite ?Z.eqb_refl in *; lia.
    + intros O a. rewrite (te_bal _ _ _ _ _ T). unfold ind. destruct (Z.eqb_spec a from); [subst; auto|].
      destruct (a =? to); lia.
    + rewrite (te_adm _ _ _ _ _ T). intros [|]; [congruence|lia].
  - apply tok_transfer_from_ok in H. destruct H as [A [P [k [k0 [k' [Sp [T [Al U]]]]]]]]. exists k, k'. split; [exact U|].
    pose proof (tk_spend_allowance_ok _ _ _ _ _ _ P Sp) as [L [Ad [D [B [M [R E]]]]]]. cbv zeta in *.
    assert (Bk : forall a, tk_balance a k0 = tk_balance a k) by (intros; unfold tk_balance; rewrite B; reflexivity).
    assert (En : forall f s, tk_allow_entry f s k' = tk_allow_entry f s k0) by (intros; unfold tk_allow_entry; rewrite Al; reflexivity).
    constructor; simpl; auto; try (intros; lia).
    + repeat split; try lia. intros. destruct ((sp =? s) && (from =? f)); lia.
    + rewrite (te_sup _ _ _ _ _ T). unfold tk_supply. rewrite B. lia.
    + intros [R1 So Al']. constructor; [|apply (te_sorted _ _ _ _ _ T); rewrite B; auto|].
      * intros a. rewrite (te_bal _ _ _ _ _ T). pose proof (te_le _ _ _ _ _ T). pose proof (te_fit _ _ _ _ _ T).
        rewrite (te_bal _ _ _ _ _ T) in H0. rewrite !Bk in *. unfold ind in *. pose proof (R1 a).
        destruct (Z.eqb_spec a from), (Z.eqb_spec a to), (Z.eqb_spec to from); try congruence; subst; rewrite ?Z.eqb_refl in *; lia.
      * intros f s a x. rewrite En, E. destruct ((f =? from) && (s =? sp) && (0 <? amt)); [|eauto].
        intros Q; inversion Q. lia.
    + intros O a. rewrite (te_bal _ _ _ _ _ T), Bk. unfold ind. destruct (Z.eqb_spec a from); [|destruct (a =? to); lia].
      subst. destruct (from =? to); [lia|]. right. exists sp. rewrite !Z.eqb_refl. simpl. split; [lia|]. split; [auto|]. lia.
    + rewrite (te_adm _ _ _ _ _ T). intros [|]; [congruence|lia].
    + intros f s _. destruct (Z.eqb_spec sp s), (Z.eqb_spec from f); subst; simpl; auto.
    + intros f s _. rewrite En, E. destruct (Z.eqb_spec f from), (Z.eqb_spec s sp), (Z.eqb_spec sp s), (Z.eqb_spec from f);
        try congruence; subst; simpl; try (left; split; auto; fail).
      destruct (Z.ltb_spec 0 amt); [right|left]; split; auto; lia.
  - apply tok_burn_ok in H. destruct H as [A [P [k [U F]]]]. eexists _, _. split; [exact U|].
    constructor; simpl; auto; try (intros; lia).
    + repeat split; auto; lia.
    + change (tk_supply (tk_write_balance from (tk_balance from k - amt) k) = tk_supply k + 0 - amt). rewrite tk_supply_write. lia.
    + intros O. destruct (write_ok from (tk_balance from k - amt) k O ltac:(pose proof (to_range _ O from); lia)) as [R So Al].
      constructor; auto.
    + intros O a. change (tk_balance a (tk_write_balance from (tk_balance from k - amt) k) < tk_balance a k -> authed e c a = true \/
        exists sp, 0 = tk_balance a k - tk_balance a (tk_write_balance from (tk_balance from k - amt) k) /\ authed e c sp = true /\
        tk_balance a k - tk_balance a (tk_write_balance from (tk_balance from k - amt) k) <= fst (tk_read_allowance (w_seq w) a sp k)).
      rewrite tk_balance_write. destruct (Z.eqb_spec a from); subst; [auto|lia].
  - apply tok_burn_from_ok in H. destruct H as [A [P [k [k0 [Sp [L2 U]]]]]]. eexists k, _. split; [exact U|].
    pose proof (tk_spend_allowance_ok _ _ _ _ _ _ P Sp) as [L [Ad [D [B [M [R E]]]]]]. cbv zeta in *.
    assert (Bk : forall a, tk_balance a k0 = tk_balance a k) by (intros; unfold tk_balance; rewrite B; reflexivity).
    assert (En : forall f s, tk_allow_entry f s (tk_log_burn amt (tk_write_balance from (tk_balance from k0 - amt) k0)) = tk_allow_entry f s k0) by reflexivity.
    assert (Bn : forall a, tk_balance a (tk_log_burn amt (tk_write_balance from (tk_balance from k0 - amt) k0)) =
       if a =? from then tk_balance from k - amt else tk_balance a k).
    { intros a. change (tk_balance a (tk_write_balance from (tk_balance from k0 - amt) k0) = if a =? from then tk_balance from k - amt else tk_balance a k).
      rewrite tk_balance_write, !Bk. reflexivity. }
    constructor; simpl; auto; try (intros; lia).
    + repeat split; try lia. intros. destruct ((sp =? s) && (from =? f)); lia.
    + change (tk_supply (tk_write_balance from (tk_balance from k0 - amt) k0) = tk_supply k + 0 - amt). rewrite tk_supply_write.
      unfold tk_supply. rewrite B. lia.
    + intros [R1 So Al']. constructor.
      * intros a. rewrite Bn. pose proof (R1 a). pose proof (R1 from). rewrite Bk in L2. destruct (a =? from); lia.
      * apply fsorted_set. rewrite B. auto.
      * intros f s a x. rewrite En, E. destruct ((f =? from) && (s =? sp) && (0 <? amt)); [|eauto].
        intros Q; inversion Q. lia.
    + intros O a. rewrite Bn. destruct (Z.eqb_spec a from); [|lia].
      subst. right. exists sp. rewrite !Z.eqb_refl. simpl. split; [lia|]. split; [auto|]. lia.
    + intros f s _. destruct (Z.eqb_spec sp s), (Z.eqb_spec from f); subst; simpl; auto.
    + intros f s _. rewrite En, E. destruct (Z.eqb_spec f from), (Z.eqb_spec s sp), (Z.eqb_spec sp s), (Z.eqb_spec from f);
        try congruence; subst; simpl; try (left; split; auto; fail).
      destruct (Z.ltb_spec 0 amt); [right|left]; split; auto; lia.
Qed.

Definition tk_fine (w : World) (t : Addr) : Prop := forall k, fget t (w_tok w) = Some k -> TkOk k.

Lemma live_upd t k k' w w' f s : TokUpd t k k' w w' -> w_seq w' = w_seq w /\
  live_allowance w' t f s = fst (tk_read_allowance (w_seq w) f s k').
Proof.
  intros [E ->]. split; [reflexivity|].
  rewrite (live_read _ t k') by (simpl; apply fget_set_same). reflexivity.
Qed.

Lemma event_fine t w ev w' b : tok_event t w ev = (w', b) -> tk_fine w t -> tk_fine w' t.
Proof.
  intros H F. destruct ev as [e c o|n s]; simpl in H.
  - destruct (tok_op e c t o w) as [[u v]|er] eqn:E; inversion H; subst; auto.
    apply tok_op_eff in E. destruct E as [k [k' [[E ->] O]]]. intros q Hq. simpl in Hq.
    rewrite fget_set_same in Hq. inversion Hq; subst. apply (oe_ok _ _ _ _ _ _ O). auto.
  - destruct (_ && _); inversion H; subst; auto.
Qed.

Lemma hist_fine t f l : forall w w' x, tok_hist t f w l = (w', x) -> tk_fine w t -> tk_fine w' t.
Proof.
  induction l as [|ev l IH]; simpl; intros w w' x H F; [inversion H; subst; auto|].
  destruct (tok_event t w ev) as [w1 ok] eqn:E. destruct (tok_hist t f w1 l) as [w2 y] eqn:E2.
  inversion H; subst. eapply IH; eauto. eapply event_fine; eauto.
Qed.

Lemma fine_fresh t a d w u w' : tok_deploy t a d w = Ok (u, w') -> tk_fine w' t /\ supply w' t = 0.
Proof.
  intros H. apply tok_deploy_ok in H. destruct H as [P [D [N ->]]]. split.
  - intros k Hk. simpl in Hk. rewrite fget_set_same in Hk. inversion Hk; subst.
    pose proof (new_tok_good a d D) as []. constructor; auto. intros f s x y Q. apply tg_allow in Q. lia.
  - unfold supply; simpl. rewrite fget_set_same. reflexivity.
Qed.

Lemma fine_total w t l : tk_fine w t -> holders w t l -> total_of w t l = supply w t.
Proof.
  intros F [N C]. unfold total_of, supply. 
  destruct (fget t (w_tok w)) as [k|] eqn:E.
  - unfold tk_supply. symmetry. rewrite (fsum_cover (t_bal k) l None).
    + apply zsum_ext. intros a _. unfold bal, tk_balance. rewrite E. reflexivity.
    + apply (to_sorted _ (F _ E)).
    + auto.
    + intros a Ha. apply C. unfold bal, tk_balance. rewrite E. auto.
  - rewrite (zsum_ext _ (fun _ => 0)), zsum_zero; auto. intros. unfold bal. rewrite E. reflexivity.
Qed.

Lemma hist_supply t f l : forall w w' x m b, (forall o, f o = op_minted o - op_burned o) ->
  tok_hist t f w l = (w', x) -> tok_hist t op_minted w l = (w', m) -> tok_hist t op_burned w l = (w', b) ->
  supply w' t = supply w t + m - b /\ 0 <= m /\ 0 <= b.
Proof.
  induction l as [|ev l IH]; simpl; intros w w' x m b Hf H1 H2 H3.
  { inversion H1; inversion H2; inversion H3; subst. lia. }
  destruct (tok_event t w ev) as [w1 ok] eqn:E.
  destruct (tok_hist t f w1 l) as [w2 y] eqn:E1. destruct (tok_hist t op_minted w1 l) as [w3 y3] eqn:E2.
  destruct (tok_hist t op_burned w1 l) as [w4 y4] eqn:E3.
  inversion H1; inversion H2; inversion H3; subst.
  destruct (IH _ _ _ _ _ Hf E1 E2 E3) as [A [B C]].
  destruct ev as [e c o|n s]; simpl in E.
  - destruct (tok_op e c t o w) as [[u v]|er] eqn:Eo; inversion E; subst; [|lia].
    apply tok_op_eff in Eo. destruct Eo as [k [k' [U O]]].
    pose proof (oe_supply _ _ _ _ _ _ O) as Q. pose proof (oe_pos _ _ _ _ _ _ O) as [P1 [P2 _]].
    rewrite A, (supply_upd _ _ _ _ _ t U), Z.eqb_refl. unfold supply. rewrite (proj1 U). lia.
  - destruct (_ && _); inversion E; subst; auto.
Qed.

Lemma hist_world t f g l : forall w, fst (tok_hist t f w l) = fst (tok_hist t g w l).
Proof.
  induction l as [|ev l IH]; simpl; intros w; auto.
  destruct (tok_event t w ev) as [w1 ok]. specialize (IH w1).
  destruct (tok_hist t f w1 l), (tok_hist t g w1 l). simpl in *. auto.
Qed.

(** ** C01 *)
(** Full statement: along every history of calls to a new token, by any callers with any
    amounts, the balances of all holders add up to what the successful mints created minus
    what the successful burns destroyed. *)
Theorem C01_supply_history t admin dec w0 w l w' minted burned hs :
  tok_deploy t admin dec w0 = Ok (tt, w) ->
  tok_hist t op_minted w l = (w', minted) -> tok_hist t op_burned w l = (w', burned) ->
  holders w' t hs -> total_of w' t hs = minted - burned.
Proof.
  intros D H1 H2 C. destruct (fine_fresh _ _ _ _ _ _ D) as [F S0].
  rewrite fine_total; [|eapply hist_fine; eauto|auto].
  destruct (tok_hist t (fun o => op_minted o - op_burned o) w l) as [w1 x] eqn:E.
  assert (w1 = w').
  { pose proof (hist_world t (fun o => op_minted o - op_burned o) op_minted l w) as Q. rewrite E, H1 in Q. exact Q. }
  subst. destruct (hist_supply t (fun o => op_minted o - op_burned o) l w w' x minted burned) as [A _]; auto. lia.
Qed.
Print Assumptions C01_supply_history.

(** The same in the whole system: in every reachable ledger, for every token, the balances
    of all holders add up to the token's mint counter minus its burn counter, and only mint
    and burn calls move these counters ([C01_supply_step]). *)
Theorem C01_supply_system H w t k hs : reachable H w -> fget t (w_tok w) = Some k -> holders w t hs ->
  total_of w t hs = t_minted k - t_burned k.
Proof.
  intros R E C. pose proof (gd_tok _ (wg_good _ (reach_wgood _ _ R)) _ _ E) as G.
  rewrite fine_total; auto.
  - unfold supply. rewrite E. apply G.
  - intros k2 E2. rewrite E in E2. inversion E2; subst. destruct G. constructor; auto.
    intros f s a x Q. apply tg_allow in Q. lia.
Qed.
Print Assumptions C01_supply_system.

Theorem C01_supply_step e c t o w w' hs hs' : tk_fine w t -> tok_op e c t o w = Ok (tt, w') ->
  holders w t hs -> holders w' t hs' ->
  total_of w' t hs' = total_of w t hs + op_minted o - op_burned o.
Proof.
  intros F E C C'.
  assert (F' : tk_fine w' t).
  { apply (event_fine t w (TCall e c o) w' true); auto. simpl. rewrite E. auto. }
  rewrite !fine_total by auto. apply tok_op_eff in E. destruct E as [k [k' [U O]]].
  rewrite (supply_upd _ _ _ _ _ t U), Z.eqb_refl. unfold supply. rewrite (proj1 U).
  apply (oe_supply _ _ _ _ _ _ O).
Qed.
Print Assumptions C01_supply_step.

(** ** C02 *)
Theorem C02_only_owner_or_spender e c t o w w' a : tk_fine w t -> tok_op e c t o w = Ok (tt, w') ->
  bal w' t a < bal w t a ->
  authed e c a = true \/
  exists sp, authed e c sp = true /\ op_pulled a sp o = bal w t a - bal w' t a /\
             bal w t a - bal w' t a <= live_allowance w t a sp.
Proof.
  intros F E L. apply tok_op_eff in E. destruct E as [k [k' [U O]]].
  pose proof (proj1 U) as Ek.
  rewrite (bal_upd _ _ _ _ _ t a U), Z.eqb_refl, (bal_get t k) in * by auto.
  destruct (oe_lower _ _ _ _ _ _ O (F _ Ek) a L) as [A|[sp [P [A B]]]]; auto.
  right. exists sp. rewrite (live_read w t k) by auto. auto.
Qed.
Print Assumptions C02_only_owner_or_spender.

(** A call to token [t] never touches another token. *)
Theorem C02_other_tokens e c t o w w' x a : x <> t -> tok_op e c t o w = Ok (tt, w') -> bal w' x a = bal w x a.
Proof.
  intros N E. apply tok_op_eff in E. destruct E as [k [k' [U O]]].
  rewrite (bal_upd _ _ _ _ _ x a U). destruct (Z.eqb_spec x t); [contradiction|reflexivity].
Qed.
Print Assumptions C02_other_tokens.

(** ** C03 *)
Definition no_approval (from sp : Addr) (l : list TokEvent) : Prop :=
  forall e c o, In (TCall e c o) l -> op_approves from sp o = false.

Lemma hist_pulled t from sp l : forall w w' x, tk_fine w t -> no_approval from sp l ->
  tok_hist t (op_pulled from sp) w l = (w', x) ->
  0 <= x /\ live_allowance w' t from sp + x <= live_allowance w t from sp.
Proof.
  induction l as [|ev l IH]; simpl; intros w w' x F N H; [inversion H; subst; lia|].
  destruct (tok_event t w ev) as [w1 ok] eqn:E. destruct (tok_hist t (op_pulled from sp) w1 l) as [w2 y] eqn:E2.
  inversion H; subst.
  destruct (IH w1 w' y) as [A B]; auto.
  { eapply event_fine; eauto. } { intros e c o I. eapply N. right. eauto. }
  destruct ev as [e c o|n s]; simpl in E.
  - destruct (tok_op e c t o w) as [[u v]|er] eqn:Eo; inversion E; subst; [|lia].
    apply tok_op_eff in Eo. destruct Eo as [k [k' [U O]]].
    pose proof (N e c o (or_introl eq_refl)) as Na.
    pose proof (oe_pos _ _ _ _ _ _ O) as [_ [_ P]]. specialize (P from sp).
    destruct (live_upd _ _ _ _ _ from sp U) as [_ L']. rewrite L' in B.
    rewrite (live_read w t k) in * by (apply U).
    assert (fst (tk_read_allowance (w_seq w) from sp k') + op_pulled from sp o <= fst (tk_read_allowance (w_seq w) from sp k)).
    { destruct (oe_entry _ _ _ _ _ _ O from sp Na) as [[Q1 Q2]|[Q1 Q2]].
      - unfold tk_read_allowance. rewrite Q1. lia.
      - unfold tk_read_allowance at 1. rewrite Q1. 
        destruct (Z.ltb_spec (snd (tk_read_allowance (w_seq w) from sp k)) (w_seq w)); simpl; lia. }
    lia.
  - assert (live_allowance w1 t from sp <= live_allowance w t from sp); [|destruct (_ && _); inversion E; subst; lia].
    destruct ((w_now w <=? n) && (w_seq w <=? s)) eqn:Eb; inversion E; subst; [|lia].
    unfold live_allowance; simpl. destruct (fget t (w_tok w)) as [k|] eqn:Ek; [|lia].
    destruct (tk_allow_entry from sp k) as [[a0 x0]|] eqn:Ea; [|lia].
    pose proof (to_allow _ (F _ Ek) _ _ _ _ Ea).
    destruct (Z.leb_spec s x0), (Z.leb_spec (w_seq w) x0); lia.
Qed.

(** Full statement: take any history [l1] of a new token, then any continuation [l2] that
    contains no approve call for the pair (from, sp).  Everything [sp] pulls from [from]
    during [l2] plus what the ledger still honours afterwards is at most what the ledger
    honoured before; in particular nothing at all if the allowance had expired. *)
Theorem C03_allowance_bounds t admin dec w0 w f l1 w1 x1 from sp l2 w2 pulled :
  tok_deploy t admin dec w0 = Ok (tt, w) -> tok_hist t f w l1 = (w1, x1) ->
  no_approval from sp l2 -> tok_hist t (op_pulled from sp) w1 l2 = (w2, pulled) ->
  0 <= pulled /\ pulled + live_allowance w2 t from sp <= live_allowance w1 t from sp.
Proof.
  intros D H1 N H2. destruct (fine_fresh _ _ _ _ _ _ D) as [F _].
  pose proof (hist_fine _ _ _ _ _ _ H1 F) as F1.
  destruct (hist_pulled _ _ _ _ _ _ _ F1 N H2). lia.
Qed.
Print Assumptions C03_allowance_bounds.

(** An approval sets the allowance to exactly the approved amount (0 if already expired). *)
Theorem C03_approval_exact e c t from sp amt ex w w' :
  tok_approve e c t from sp amt ex w = Ok (tt, w') ->
  authed e c from = true /\ 0 <= amt /\ live_allowance w' t from sp = amt.
Proof.
  intros H. apply tok_approve_ok in H. destruct H as [A [P [k [k' [W U]]]]].
  split; auto. split; auto. destruct (live_upd _ _ _ _ _ from sp U) as [_ ->].
  apply tk_write_allowance_ok in W. destruct W as [L [_ [_ [_ [_ [_ E]]]]]].
  unfold tk_read_allowance. rewrite E, !Z.eqb_refl. simpl.
  destruct (Z.ltb_spec ex (w_seq w)); simpl; auto. destruct (Z.eq_dec amt 0); lia.
Qed.
Print Assumptions C03_approval_exact.

(** ** C04 *)
Theorem C04_balance_range_history t admin dec w0 w f l w' x a :
  tok_deploy t admin dec w0 = Ok (tt, w) -> tok_hist t f w l = (w', x) ->
  0 <= bal w' t a <= I128_MAX.
Proof.
  intros D H. destruct (fine_fresh _ _ _ _ _ _ D) as [F _]. pose proof (hist_fine _ _ _ _ _ _ H F) as F'.
  unfold bal. destruct (fget t (w_tok w')) as [k|] eqn:E; [|unfold I128_MAX; lia]. apply (to_range _ (F' _ E)).
Qed.
Print Assumptions C04_balance_range_history.

Theorem C04_balance_range_system H w t a : reachable H w -> 0 <= bal w t a <= I128_MAX.
Proof. intros R. apply good_bal, wg_good, (reach_wgood _ _ R). Qed.
Print Assumptions C04_balance_range_system.

(** ** C05 *)
Theorem C05_only_admin_mints e c t o w w' ad ad' : tk_fine w t ->
  tok_op e c t o w = Ok (tt, w') -> tadmin w t = Some ad -> tadmin w' t = Some ad' ->
  ad' <> ad \/ supply w t < supply w' t -> authed e c ad = true.
Proof.
  intros F E A A' C. apply tok_op_eff in E. destruct E as [k [k' [U O]]]. pose proof (proj1 U) as Ek.
  unfold tadmin in A. rewrite Ek in A. inversion A; subst.
  apply (oe_admin _ _ _ _ _ _ O). destruct C as [C|C].
  - left. destruct U as [_ ->]. unfold tadmin in A'. simpl in A'. rewrite fget_set_same in A'. inversion A'; subst. auto.
  - right. rewrite (supply_upd _ _ _ _ _ t U), Z.eqb_refl in C. unfold supply in C. rewrite Ek in C.
    pose proof (oe_supply _ _ _ _ _ _ O). pose proof (oe_pos _ _ _ _ _ _ O). lia.
Qed.
Print Assumptions C05_only_admin_mints.

(** In the whole system: if a transaction mints a token or changes its admin, then the
    admin stored before either signed the transaction or is a contract of this system that
    takes part in it (its own code decided to mint). *)
Theorem C05_only_admin_mints_system H w e k w' t ad : reachable H w -> exec e k w = Ok (tt, w') ->
  tadmin w t = Some ad -> tadmin w' t <> Some ad \/ supply w t < supply w' t ->
  signs e ad = true \/
  (exists kd, fget ad (w_code w) = Some kd /\ acts k ad kd) \/
  (0 <= ad /\ fget ad (w_code w) = None).
Proof.
  intros R E A C. pose proof (wg_good _ (reach_wgood _ _ R)) as G.
  destruct (signs e ad) eqn:Sg; [auto|right].
  destruct (fget ad (w_code w)) as [kd|] eqn:Ec.
  - left. exists kd. split; auto. destruct (exists_dec_acts k ad kd) as [Y|N]; auto. exfalso.
    destruct (exec_framec _ _ _ _ E G) as [_ [_ [_ [_ U]]]].
    destruct (ut_tok _ _ _ (U _ _ Ec N) t A) as [B1 B2]. destruct C; [congruence|lia].
  - destruct (Z.leb_spec 0 ad); [auto|]. exfalso.
    destruct (uses_allowance k) eqn:Ua.
    + destruct k; try discriminate Ua; simpl in E.
      * apply tok_transfer_from_ok in E. destruct E as [_ [P [k1 [k0 [k' [Sp [T [_ U]]]]]]]].
        pose proof (tk_spend_allowance_ok _ _ _ _ _ _ P Sp) as [L [Ad [D [B _]]]].
        rewrite (tadmin_upd _ _ _ _ _ t U) in C by (rewrite (te_adm _ _ _ _ _ T); auto).
        rewrite (supply_upd _ _ _ _ _ t U), (te_sup _ _ _ _ _ T) in C.
        destruct C as [C|C]; [congruence|]. destruct (Z.eqb_spec t t0); [|lia].
        subst. unfold supply, tk_supply in C. rewrite B, (proj1 U) in C. lia.
      * apply tok_burn_from_ok in E. destruct E as [_ [P [k1 [k0 [Sp [L2 U]]]]]].
        pose proof (tk_spend_allowance_ok _ _ _ _ _ _ P Sp) as [L [Ad [D [B _]]]].
        rewrite (tadmin_upd _ _ _ _ _ t U) in C by auto.
        rewrite (supply_upd _ _ _ _ _ t U) in C.
        destruct C as [C|C]; [congruence|]. destruct (Z.eqb_spec t t0); [|lia].
        change (tk_supply (tk_log_burn amt (tk_write_balance from (tk_balance from k0 - amt) k0))) with
          (tk_supply (tk_write_balance from (tk_balance from k0 - amt) k0)) in C.
        rewrite tk_supply_write in C.
        subst. unfold supply, tk_supply in C. rewrite B, (proj1 U) in C. lia.
    + destruct (exec_frame _ _ _ _ E Ua G) as [_ [_ [_ [_ [L _]]]]].
      destruct (ac_tok _ _ _ (L ad ltac:(lia) Sg) t A) as [B1 B2]. destruct C; [congruence|lia].
Qed.
Print Assumptions C05_only_admin_mints_system.

(** The well-formedness [tk_fine] used above holds in every state these theorems are about. *)
Theorem tk_fine_history t admin dec w0 w f l w' x :
  tok_deploy t admin dec w0 = Ok (tt, w) -> tok_hist t f w l = (w', x) -> tk_fine w' t.
Proof. intros D H. destruct (fine_fresh _ _ _ _ _ _ D) as [F _]. eapply hist_fine; eauto. Qed.
Theorem tk_fine_reachable H w t : reachable H w -> tk_fine w t.
Proof.
  intros R k E. pose proof (gd_tok _ (wg_good _ (reach_wgood _ _ R)) _ _ E) as []. constructor; auto.
  intros f s a x Q. apply tg_allow in Q. lia.
Qed.

(** ** Concrete cases *)
Definition exW : World := match tok_deploy 7 (-1) 7 w_empty with Ok (_, w) => w | Err _ => w_empty end.
Definition exL : list TokEvent :=
  [ TCall (env_of [-1]) None (OpMint (-2) 1000);
    TCall (env_of [-2]) None (OpMint (-2) 1000);              (* not the admin: fails *)
    TCall (env_of [-2]) None (OpApprove (-2) (-3) 300 50);
    TClock 10 20;
    TCall (env_of [-3]) None (OpTransferFrom (-3) (-2) (-4) 120);
    TCall (env_of [-3]) None (OpBurnFrom (-3) (-2) 80);
    TCall (env_of [-3]) None (OpTransferFrom (-3) (-2) (-4) 101); (* above the allowance: fails *)
    TCall (env_of [-4]) (Some 9) (OpTransfer (-4) 9 20) ].

Example exW_fresh : tok_deploy 7 (-1) 7 w_empty = Ok (tt, exW).
Proof. reflexivity. Qed.
Example C01_example :
  let w := fst (tok_hist 7 op_minted exW exL) in
  snd (tok_hist 7 op_minted exW exL) = 1000 /\ snd (tok_hist 7 op_burned exW exL) = 80 /\
  map (bal w 7) [-2; -4; 9] = [800; 100; 20] /\
  total_of w 7 [-2; -4; 9] = 920.
Proof. vm_compute. auto. Qed.
Example C02_example :
  let w := fst (tok_hist 7 op_minted exW exL) in
  exists w', tok_op (env_of [-3]) None 7 (OpTransferFrom (-3) (-2) (-5) 60) w = Ok (tt, w') /\
    bal w' 7 (-2) = 740 /\ bal w 7 (-2) = 800 /\ live_allowance w 7 (-2) (-3) = 100.
Proof. eexists. vm_compute. repeat split. Qed.
Example C03_example :
  let w1 := fst (tok_hist 7 op_minted exW (firstn 4 exL)) in
  live_allowance w1 7 (-2) (-3) = 300 /\
  snd (tok_hist 7 (op_pulled (-2) (-3)) w1 (skipn 4 exL)) = 200 /\
  live_allowance (fst (tok_hist 7 op_minted w1 (skipn 4 exL))) 7 (-2) (-3) = 100 /\
  live_allowance (set_time w1 10 51) 7 (-2) (-3) = 0.
Proof. vm_compute. auto. Qed.
Example C05_example :
  exists w', tok_op (env_of [-1]) None 7 (OpMint (-2) 5) exW = Ok (tt, w') /\
    supply exW 7 = 0 /\ supply w' 7 = 5 /\ tadmin exW 7 = Some (-1).
Proof. eexists. vm_compute. repeat split. Qed.
Example C01_C04_C05_system_example :
  exists w w', reachable xH w /\ exec (env_of [-1]) (CMint 7 (-2) I128_MAX) w = Ok (tt, w') /\
    bal w' 7 (-2) = I128_MAX /\ supply w 7 < supply w' 7 /\ tadmin w 7 = Some (-1).
Proof.
  exists exW. eexists. split.
  - exists [Tx (env_of []) (CDeployTok 7 (-1) 7)]. econstructor; [econstructor; reflexivity|constructor].
  - vm_compute. repeat split.
Qed.
