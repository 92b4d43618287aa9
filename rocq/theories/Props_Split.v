(** Splitting a swap into pieces (C143–C145). *)
From Coq Require Import ZArith List Bool Lia.
From Coq Require Import ZifyBool.
From Verif Require Import Base FMap Decimal DecimalProofs Curve World Token TokenProofs Frame Stake Pool PoolProofs
  Stable Rewards Vest Factory Router System SysFrame SysInv SysPool Script Props_Token Props_Pool Props_PoolCases Props_Vest.
Import ListNotations.
Open Scope Z_scope.

(** the amounts of [l] swapped one after the other, by anybody, returning [tot] altogether; in between
    anything may happen that leaves the record of the pool alone *)
Inductive in_pieces (self offer : Addr) : World -> list Z -> Z -> World -> Prop :=
| pieces_nil w : in_pieces self offer w [] 0 w
| pieces_cons e c u amt mi ms dl mf w ret w1 w2 l tot w3 : u <> self ->
    pool_swap e c self u offer amt mi ms dl mf w = Ok (ret, w1) ->
    fget self (w_pool w2) = fget self (w_pool w1) ->
    in_pieces self offer w2 l tot w3 -> in_pieces self offer w (amt :: l) (ret + tot) w3.

Lemma side_fun p offer x y buy x' y' buy' : side p offer x y buy -> side p offer x' y' buy' -> x' = x /\ y' = y /\ buy' = buy.
Proof. unfold side. intros A B. intuition (subst; congruence). Qed.

Lemma pieces_facts self offer w l tot w' : in_pieces self offer w l tot w' -> l <> [] ->
  forall p x y buy, pool_at w self p -> side p offer x y buy ->
  exists g fees, let n := Z.of_nat (length l) in let X := x + sum_of (fun a => a) l in
    0 < x < X /\ tot = g - fees /\
    x * y - n * X < X * (y - g) <= x * y /\ 10000 * fees <= g * p_fee p < 10000 * (fees + n).
Proof.
  induction 1 as [w|e c u amt mi ms dl mf w ret w1 w2 l tot w3 Nu X E T IH]; intros Nn p x y buy Hp Sd; [congruence|clear Nn].
  destruct (swap_facts _ _ _ _ _ _ _ _ _ _ _ _ _ Nu X) as [p0 [p1 [x0 [y0 [g [fee [sp [buy0 F]]]]]]]].
  pose proof (sf_before F) as B. unfold pool_at in *. rewrite Hp in B. injection B as B. subst p0.
  destruct (side_fun _ _ _ _ _ _ _ _ Sd (sf_side F)) as [-> [-> ->]].
  pose proof (sf_pos F) as Po. pose proof (sf_product F) as Pr. pose proof (sf_gross F) as Gr.
  pose proof (sf_fee F) as Fe.
  assert (Fb : 10000 * fee <= g * p_fee p < 10000 * (fee + 1)).
  { subst fee. pose proof (Z.mul_div_le (g * p_fee p) 10000). pose proof (Z.mul_succ_div_gt (g * p_fee p) 10000). lia. }
  cbv zeta. destruct l as [|b l].
  - inversion T; subst. exists (ret + fee), fee. cbn [length sum_of]. change (Z.of_nat 1) with 1.
    split; [lia|]. split; [lia|]. rewrite Z.add_0_r. split; [lia|]. exact Fb.
  - assert (E1 : p_fee p1 = p_fee p) by (rewrite (sf_same F); reflexivity).
    destruct (IH ltac:(discriminate) p1 (x + amt) (y - g) buy) as [g2 [fees [A1 [A2 [A3 A4]]]]].
    { rewrite E. apply (sf_after F). } { apply (sf_side' F). }
    rewrite E1 in A4. exists (g + g2), (fee + fees).
    replace (Z.of_nat (length (amt :: b :: l))) with (1 + Z.of_nat (length (b :: l))) by (cbn [length]; lia).
    change (sum_of (fun a : Z => a) (amt :: b :: l)) with (amt + sum_of (fun a : Z => a) (b :: l)).
    revert A1 A3 A4. generalize (sum_of (fun a : Z => a) (b :: l)) (Z.of_nat (length (b :: l))). intros S0 n A1 A3 A4.
    split; [lia|]. split; [lia|].
    replace (x + (amt + S0)) with (x + amt + S0) by lia. replace (y - (g + g2)) with (y - g - g2) by lia.
    split; [|lia]. split; [|lia].
    assert ((1 + n) * (x + amt + S0) = (x + amt + S0) + n * (x + amt + S0)) by ring. lia.
Qed.

(** Swapping in pieces never returns less than one swap of the sum, and at most two units more for every
    additional piece. *)
Theorem C143_splitting_gains_little H self offer w l tot w' e c u mi ms dl mf ret w1 p :
  reachable H w -> pool_at w self p -> in_pieces self offer w l tot w' -> u <> self ->
  pool_swap e c self u offer (sum_of (fun a => a) l) mi ms dl mf w = Ok (ret, w1) ->
  ret <= tot <= ret + 2 * (Z.of_nat (length l) - 1).
Proof.
  intros R Hp T Nu X. destruct (C22_settings_valid _ _ _ _ R Hp) as [Fr _].
  destruct (swap_facts _ _ _ _ _ _ _ _ _ _ _ _ _ Nu X) as [p0 [p1 [x [y [g [fee [sp [buy F]]]]]]]].
  pose proof (sf_before F) as B. unfold pool_at in B, Hp. rewrite Hp in B. injection B as B. subst p0.
  pose proof (sf_pos F) as Po. pose proof (sf_product F) as Pr. pose proof (sf_gross F) as Gr. pose proof (sf_fee F) as Fe.
  assert (Fb : 10000 * fee <= g * p_fee p < 10000 * (fee + 1)).
  { subst fee. pose proof (Z.mul_div_le (g * p_fee p) 10000). pose proof (Z.mul_succ_div_gt (g * p_fee p) 10000). lia. }
  assert (Nn : l <> []) by (intros ->; cbn in Po; lia).
  destruct (pieces_facts _ _ _ _ _ _ T Nn p x y buy Hp (sf_side F)) as [g2 [fees [A1 [A2 [A3 A4]]]]].
  revert A1 A3 A4 Po Pr. generalize (sum_of (fun a => a) l) (Z.of_nat (length l)). intros S0 n A1 A3 A4 Po Pr.
  assert (G1 : g <= g2). { assert ((x + S0) * (y - g2) < (x + S0) * (y - g + 1)) by lia. nia. }
  assert (G2 : g2 - g < n). { assert (K : (x + S0) * (g2 - g) < (x + S0) * n) by nia. apply Z.mul_lt_mono_pos_l in K; lia. }
  subst tot. assert (ret = g - fee) by lia. subst ret.
  assert (K1 : fees - fee <= g2 - g). { assert (10000 * (fees - fee) < (g2 - g) * p_fee p + 10000) by lia. assert ((g2 - g) * p_fee p <= (g2 - g) * 10000) by nia. lia. }
  assert (K2 : - n < fees - fee). { assert (0 <= (g2 - g) * p_fee p) by nia. lia. }
  lia.
Qed.
Print Assumptions C143_splitting_gains_little.

(** account -4 swaps [a] of token 1 in pool 10 *)
Definition sell (a : Z) (w : World) : res (Z * World) := pool_swap (env_of [-4]) None 10 (-4) 1 a None None None None w.
Fixpoint sells (l : list Z) (w : World) : option (Z * World) :=
  match l with
  | [] => Some (0, w)
  | a :: tl => match sell a w with
               | Ok (r, w1) => match sells tl w1 with Some (t, w2) => Some (r + t, w2) | None => None end
               | Err _ => None end
  end.
Lemma sells_pieces l : forall w tot w', sells l w = Some (tot, w') -> in_pieces 10 1 w l tot w'.
Proof.
  induction l as [|a l IH]; cbn [sells]; intros w tot w' E; [inversion E; subst; constructor|].
  destruct (sell a w) as [[r w1]|] eqn:X; [|discriminate]. destruct (sells l w1) as [[t w2]|] eqn:Y; [|discriminate].
  inversion E; subst. eapply pieces_cons; [|exact X|reflexivity|apply IH; exact Y]. intros Q. discriminate Q.
Qed.
Definition sold (l : list Z) (w : World) : World := match sells l w with Some (_, w') => w' | None => w_empty end.

Example C143_example : in_pieces 10 1 xW [4000; 3000; 3000] 19747 (sold [4000; 3000; 3000] xW) /\
  sell 10000 xW = Ok (19743, after (sell 10000 xW)).
Proof. split; [apply sells_pieces; vm_compute; reflexivity|vm_compute; reflexivity]. Qed.

(** ** C144: the commission of a piece is rounded down, so it is zero for small pieces *)
Theorem C144_free_swaps e c self u offer amt mi ms dl mf w ret w' p x y buy : u <> self ->
  pool_at w self p -> side p offer x y buy -> p_feerec p <> self -> p_feerec p <> u ->
  pool_swap e c self u offer amt mi ms dl mf w = Ok (ret, w') ->
  exists p' gross, pool_at w' self p' /\ side p' offer (x + amt) (y - gross) buy /\
    (bal w' buy (p_feerec p) = bal w buy (p_feerec p) <-> gross * p_fee p < 10000) /\
    (gross * p_fee p < 10000 -> ret = gross).
Proof.
  intros Nu Hp Sd N1 N2 X.
  destruct (swap_facts _ _ _ _ _ _ _ _ _ _ _ _ _ Nu X) as [p0 [p1 [x0 [y0 [g [fee [sp [buy0 F]]]]]]]].
  pose proof (sf_before F) as B. unfold pool_at in B, Hp. rewrite Hp in B. injection B as B. subst p0.
  destruct (side_fun _ _ _ _ _ _ _ _ Sd (sf_side F)) as [-> [-> ->]].
  pose proof (sf_pos F) as Po. pose proof (sf_gross F) as Gr. pose proof (sf_fee F) as Fe.
  assert (Fb : 10000 * fee <= g * p_fee p < 10000 * (fee + 1)).
  { subst fee. pose proof (Z.mul_div_le (g * p_fee p) 10000). pose proof (Z.mul_succ_div_gt (g * p_fee p) 10000). lia. }
  exists p1, g. split; [apply (sf_after F)|]. split; [apply (sf_side' F)|].
  pose proof (sf_bal F buy (p_feerec p)) as Q. unfold on in Q. rewrite Z.eqb_refl in Q. cbn [andb] in Q. rewrite Z.eqb_refl in Q.
  destruct (Z.eqb_spec (p_feerec p) self); [congruence|]. destruct (Z.eqb_spec (p_feerec p) u); [congruence|].
  rewrite !andb_false_r in Q. split; [split; intros E; lia | intros E; lia].
Qed.
Print Assumptions C144_free_swaps.

(** a pool with a fee of one basis point *)
Definition oW : World := world_of (xsetup 1 1000 ++ xfund 1000000 2000000).
Definition oP : Pool := mkPool 1 2 xshare (xH 10 SEmpty) 1 (-3) 500 1000 500 100 (-1) 1414213 1000000 2000000.
(** "The fees collected depend on the volume, not on how it is split": five swaps pay nothing where one
    swap of the same volume pays the fee *)
Theorem C144_fees_follow_volume_refuted : exists w l tot w' ret w1,
  reachable xH w /\ pool_at w 10 oP /\ sum_of (fun a => a) l = 20000 /\
  in_pieces 10 1 w l tot w' /\ bal w' 2 (p_feerec oP) = bal w 2 (p_feerec oP) /\
  pool_swap (env_of [-4]) None 10 (-4) 1 20000 None None None None w = Ok (ret, w1) /\
  bal w1 2 (p_feerec oP) = bal w 2 (p_feerec oP) + 3 /\ tot = ret + 5.
Proof.
  exists oW, [4000; 4000; 4000; 4000; 4000], 39218, (sold [4000; 4000; 4000; 4000; 4000] oW), 39213, (after (sell 20000 oW)).
  split; [apply world_reach; vm_compute; reflexivity|]. split; [vm_compute; reflexivity|]. split; [reflexivity|].
  split; [apply sells_pieces; vm_compute; reflexivity|]. split; [vm_compute; reflexivity|].
  split; [vm_compute; reflexivity|]. split; vm_compute; reflexivity.
Qed.
Print Assumptions C144_fees_follow_volume_refuted.
Example C144_example : side oP 1 (10^6) (2 * 10^6) 2 /\ sell 4000 oW = Ok (7969, after (sell 4000 oW)).
Proof. split; [left; auto|vm_compute; reflexivity]. Qed.

(** ** C145: small swaps *)
(** The gross output is rounded up and the output at the spot price is rounded down; their difference is
    the spread, and the call fails if it is negative. *)
Theorem C145_spread_is_subtracted H w e c self u offer amt mi ms dl mf ret w' p x y buy :
  reachable H w -> c <> Some self -> pool_at w self p -> side p offer x y buy ->
  pool_swap e c self u offer amt mi ms dl mf w = Ok (ret, w') ->
  (amt * y) mod x <= amt * (amt * y / x).
Proof.
  intros R Nc Hp Sd X. pose proof (C14_sender_is_not_the_pool _ _ _ _ _ _ _ _ _ _ _ _ _ _ R Nc X) as Nu.
  destruct (swap_facts _ _ _ _ _ _ _ _ _ _ _ _ _ Nu X) as [p0 [p1 [x0 [y0 [g [fee [sp [buy0 F]]]]]]]].
  pose proof (sf_before F) as B. unfold pool_at in B, Hp. rewrite Hp in B. injection B as B. subst p0.
  destruct (side_fun _ _ _ _ _ _ _ _ Sd (sf_side F)) as [-> [-> ->]].
  pose proof (sf_pos F) as Po. pose proof (sf_product F) as Pr. pose proof (sf_spread F) as [S1 S2].
  pose proof (Z.div_mod (amt * y) x ltac:(lia)) as Dm. pose proof (Z.mod_pos_bound (amt * y) x ltac:(lia)) as Mb.
  revert S1 Dm Mb. generalize (amt * y / x) ((amt * y) mod x). intros q r S1 Dm Mb.
  assert (g <= q) by lia. assert ((x + amt) * g <= (x + amt) * q) by nia.
  assert ((x + amt) * (y - g) = x * y + amt * y - (x + amt) * g) by ring.
  nia.
Qed.
Print Assumptions C145_spread_is_subtracted.

(** a pool holding a million of one token and three hundred thousand of the other, at 7 decimals *)
Definition rA : Z := 10000000012345.
Definition rB : Z := 3000000000777.
Definition rW : World := world_of (xsetup 30 1000 ++ xfund rA rB).
Definition rP : Pool := mkPool 1 2 xshare (xH 10 SEmpty) 30 (-3) 500 1000 500 100 (-1) 5477225579141 rA rB.
Lemma rW_reach : reachable xH rW. Proof. apply world_reach. vm_compute. reflexivity. Qed.
Lemma rW_pool : pool_at rW 10 rP. Proof. vm_compute. reflexivity. Qed.

(** "A swap whose spread is negligible and which is covered by the balance of the sender is served": no swap of
    up to a tenth of a token succeeds, whatever the caller passes, though its output would be up to 300000 units. *)
Theorem C145_small_swaps_refuted : exists w p x y buy, reachable xH w /\ pool_at w 10 p /\ side p 1 x y buy /\ x = 10^13 + 12345 /\
  tdec w 1 = Some 7 /\ (forall amt, 1 <= amt <= 10^6 -> amt <= bal w 1 (-4)) /\ (10^6 * y) / (x + 10^6) = 299999 /\
  forall e c amt mi ms dl mf r w', c <> Some 10 -> 1 <= amt <= 10^6 -> pool_swap e c 10 (-4) 1 amt mi ms dl mf w <> Ok (r, w').
Proof.
  assert (Sd : side rP 1 rA rB 2) by (left; auto).
  exists rW, rP, rA, rB, 2. split; [exact rW_reach|]. split; [exact rW_pool|]. split; [exact Sd|]. split; [reflexivity|].
  split; [vm_compute; reflexivity|]. split.
  { intros amt A. replace (bal rW 1 (-4)) with (10^15) by (vm_compute; reflexivity). lia. }
  split; [vm_compute; reflexivity|].
  intros e c amt mi ms dl mf r w' Nc A X.
  pose proof (C145_spread_is_subtracted _ _ _ _ _ _ _ _ _ _ _ _ _ _ _ _ _ _ rW_reach Nc rW_pool Sd X) as L.
  pose proof (Z.div_mod (amt * rB) rA ltac:(discriminate)) as Dm. pose proof (Z.mod_pos_bound (amt * rB) rA ltac:(reflexivity)) as Mb.
  revert L Dm Mb. generalize (amt * rB / rA) ((amt * rB) mod rA). unfold rA, rB. intros q m L Dm Mb.
  assert (1 <= 3 * amt - 10 * q) by lia. assert (10 * m >= 10000000012345 - 29265 * 10^6) by lia.
  assert (10 * q <= 3 * 10^6) by lia. nia.
Qed.
Print Assumptions C145_small_swaps_refuted.
(** larger amounts pass *)
Example C145_example : sell 1820877 rW = Ok (544625, after (sell 1820877 rW)) /\
  (1820877 * rB) mod rA = 994671204694 /\ 1820877 * rB / rA = 546263.
Proof. vm_compute. auto. Qed.
