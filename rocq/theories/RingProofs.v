(** * RingProofs: the ring buffer refines the list queue of RingSpec. *)
From Verif Require Import Base RingModel RingSpec.
Open Scope Z_scope.

Definition RWf (r : ring) : Prop :=
  rcap r = zlen (rdata r) /\ 1 <= rcap r < 2147483648 /\
  0 <= rpos r < rcap r /\ 0 <= rlen r <= rcap r.

(** index of the k-th oldest byte *)
Definition ridx (r : ring) (k : Z) : Z := (rpos r + k) mod rcap r.

Definition rabs (r : ring) : list Z :=
  map (fun k => nth (Z.to_nat (ridx r (Z.of_nat k))) (rdata r) 0) (seq 0 (Z.to_nat (rlen r))).

Lemma zlen_rabs r : RWf r -> zlen (rabs r) = rlen r.
Proof.
  intros (_ & _ & _ & H). unfold zlen, rabs. rewrite map_length, seq_length. lia.
Qed.

Lemma ridx_range r k : RWf r -> 0 <= ridx r k < rcap r.
Proof. intros (_ & H & _). unfold ridx. apply Z.mod_pos_bound; lia. Qed.

Lemma nth_rabs r k : RWf r -> 0 <= k < rlen r ->
  nth_error (rabs r) (Z.to_nat k) = Some (nth (Z.to_nat (ridx r k)) (rdata r) 0).
Proof.
  intros W H. unfold rabs.
  rewrite nth_error_map.
  rewrite (nth_error_nth' _ O) by (rewrite seq_length; lia).
  rewrite seq_nth by lia. cbn. rewrite Z2Nat.id by lia. reflexivity.
Qed.

Lemma rabs_eq r q : RWf r -> zlen q = rlen r ->
  (forall k, 0 <= k < rlen r ->
     nth_error q (Z.to_nat k) = Some (nth (Z.to_nat (ridx r k)) (rdata r) 0)) ->
  rabs r = q.
Proof.
  intros W L H. apply nth_error_ext_eq. intros i.
  destruct (Z_lt_le_dec (Z.of_nat i) (rlen r)) as [Hi|Hi].
  - rewrite <- (Nat2Z.id i). rewrite H, nth_rabs by (auto; lia). reflexivity.
  - pose proof (zlen_rabs r W) as Hl. unfold zlen in *.
    rewrite (proj2 (nth_error_None _ _)) by lia.
    rewrite (proj2 (nth_error_None _ _)) by lia. reflexivity.
Qed.

Lemma mod_inj a b c : 0 < c -> a mod c = b mod c -> Z.abs (a - b) < c -> a = b.
Proof.
  intros Hc E H.
  assert (exists k, a - b = k * c) as [k Hk].
  { exists (a / c - b / c).
    rewrite (Z.div_mod a c), (Z.div_mod b c) at 1 by lia. rewrite E. ring. }
  assert (k = 0) by nia. nia.
Qed.

Lemma umod_ok a b : 0 < b -> umod a b = Ok (a mod b).
Proof. intros H. unfold umod. destruct (Z.eqb_spec b 0); [lia|reflexivity]. Qed.

(** put *)
Lemma put_spec r c : RWf r -> rlen r < rcap r ->
  exists r', ring_put r c = Ok r' /\ RWf r' /\ rcap r' = rcap r /\
             rlen r' = rlen r + 1 /\ rabs r' = rabs r ++ [c].
Proof.
  intros W HL. pose proof W as (W1 & W2 & W3 & W4).
  unfold ring_put.
  rewrite u32_small by lia. rewrite umod_ok by lia. cbn [bind].
  pose proof (ridx_range r (rlen r) W) as HR. unfold ridx in HR.
  rewrite zset_ok by lia. cbn [bind].
  rewrite u32_small by lia.
  eexists; split; [reflexivity|].
  match goal with |- RWf ?x /\ _ => set (r' := x) end.
  assert (W' : RWf r').
  { unfold RWf, r'; cbn. rewrite zlen_upd. lia. }
  splits; try exact W'; try (cbn; lia).
  apply rabs_eq; auto.
  { rewrite zlen_app, zlen_rabs by auto. reflexivity. }
  intros k Hk. cbn in Hk.
  destruct (Z.eq_dec k (rlen r)) as [->|Hne].
  - rewrite nth_error_app2; pose proof (zlen_rabs r W) as L; unfold zlen in L; [|lia].
    replace (Z.to_nat (rlen r) - length (rabs r))%nat with O by lia. cbn.
    f_equal. symmetry. apply nth_upd_same.
    unfold ridx; cbn. unfold zlen in *; lia.
  - rewrite nth_error_app1; pose proof (zlen_rabs r W) as L; unfold zlen in L; [|lia].
    rewrite nth_rabs by (auto; lia). f_equal.
    unfold ridx at 2, r'; cbn.
    rewrite nth_upd_other; [reflexivity|].
    intros E.
    assert ((rpos r + rlen r) mod rcap r = (rpos r + k) mod rcap r) as E2.
    { pose proof (Z.mod_pos_bound (rpos r + k) (rcap r)). lia. }
    apply mod_inj in E2; lia.
Qed.

Lemma putAll_spec cs : forall r, RWf r -> rlen r + zlen cs <= rcap r ->
  exists r', ring_putAll r cs = Ok r' /\ RWf r' /\ rcap r' = rcap r /\
             rlen r' = rlen r + zlen cs /\ rabs r' = rabs r ++ cs.
Proof.
  induction cs as [|c cs IH]; intros r W H.
  - exists r. rewrite app_nil_r. splits; auto. rewrite zlen_nil; lia.
  - rewrite zlen_cons in H. pose proof (zlen_nonneg cs).
    destruct (put_spec r c W) as (r1 & E1 & W1 & C1 & L1 & A1); [lia|].
    destruct (IH r1 W1) as (r2 & E2 & W2 & C2 & L2 & A2); [lia|].
    exists r2. cbn [ring_putAll]. rewrite E1; cbn [bind].
    splits; auto; try lia.
    + rewrite zlen_cons; lia.
    + rewrite A2, A1, <- app_assoc. reflexivity.
Qed.

Lemma putBytes_ok r m : RWf r -> rlen r + (zlen m + 1) <= rcap r ->
  exists r', ring_putBytes r m = Ok (1, r') /\ RWf r' /\ rcap r' = rcap r /\
             rlen r' = rlen r + zlen m + 1 /\ rabs r' = rabs r ++ m ++ [33].
Proof.
  intros W H. pose proof W as (W1 & W2 & W3 & W4). pose proof (zlen_nonneg m).
  destruct (putAll_spec m r W) as (r1 & E1 & V1 & C1 & L1 & A1); [lia|].
  destruct (put_spec r1 END V1) as (r2 & E2 & V2 & C2 & L2 & A2); [lia|].
  exists r2. unfold ring_putBytes.
  rewrite u32_small by lia.
  destruct (Z.ltb_spec (rlen r + zlen m) (rcap r)); [|lia].
  rewrite E1; cbn [bind]; rewrite E2; cbn [bind].
  splits; auto; try lia.
  now rewrite A2, A1, <- app_assoc.
Qed.

Lemma putBytes_full r m : RWf r -> zlen m + rcap r < 4294967296 ->
  ~ rlen r + (zlen m + 1) <= rcap r -> ring_putBytes r m = Ok (0, r).
Proof.
  intros (W1 & W2 & W3 & W4) Hm H. pose proof (zlen_nonneg m).
  unfold ring_putBytes. rewrite u32_small by lia.
  destruct (Z.ltb_spec (rlen r + zlen m) (rcap r)); [lia|reflexivity].
Qed.

(** putInFront *)
Lemma putInFront_spec r c : RWf r -> rlen r < rcap r ->
  exists r', ring_putInFront r c = Ok r' /\ RWf r' /\ rcap r' = rcap r /\
             rlen r' = rlen r + 1 /\ rabs r' = c :: rabs r.
Proof.
  intros W HL. pose proof W as (W1 & W2 & W3 & W4).
  unfold ring_putInFront.
  set (p := (rpos r - 1) mod rcap r).
  assert (Hp : 0 <= p < rcap r) by (apply Z.mod_pos_bound; lia).
  assert (Ep : (if rpos r =? 0 then Ok (u32 (rcap r - 1)) else umod (rpos r - 1) (rcap r)) = Ok p).
  { destruct (Z.eqb_spec (rpos r) 0) as [E|E].
    - rewrite u32_small by lia. f_equal. unfold p. rewrite E.
      replace (0 - 1) with ((rcap r - 1) + (-1) * rcap r) by ring.
      rewrite Z.mod_add by lia. rewrite Z.mod_small; lia.
    - apply umod_ok; lia. }
  rewrite Ep; cbn [bind]. rewrite zset_ok by lia. cbn [bind].
  rewrite u32_small by lia.
  eexists; split; [reflexivity|].
  match goal with |- RWf ?x /\ _ => set (r' := x) end.
  assert (W' : RWf r').
  { unfold RWf, r'; cbn. rewrite zlen_upd. lia. }
  splits; try exact W'; try (cbn; lia).
  apply rabs_eq; auto.
  { rewrite zlen_cons, zlen_rabs by auto. reflexivity. }
  intros k Hk. cbn in Hk.
  destruct (Z.eq_dec k 0) as [->|Hne].
  - cbn [Z.to_nat nth_error]. f_equal. symmetry. unfold ridx; cbn.
    rewrite Z.add_0_r, Z.mod_small by lia.
    apply nth_upd_same. unfold zlen in *; lia.
  - replace (Z.to_nat k) with (S (Z.to_nat (k - 1))) by lia. cbn [nth_error].
    rewrite nth_rabs by (auto; lia). f_equal.
    assert (Hi : ridx r' k = ridx r (k - 1)).
    { unfold ridx, r', p; cbn. rewrite Zplus_mod_idemp_l. f_equal. ring. }
    rewrite Hi. unfold r'; cbn [rdata].
    rewrite nth_upd_other; [reflexivity|].
    intros E. pose proof (ridx_range r (k - 1) W).
    assert (p = ridx r (k-1)) as E2 by lia.
    unfold p, ridx in E2. apply mod_inj in E2; lia.
Qed.

Lemma frontLoop_spec m : forall fuel r n, RWf r -> (n <= length m)%nat -> (n <= fuel)%nat ->
  rlen r + Z.of_nat n <= rcap r ->
  exists r', ring_frontLoop fuel r m (Z.of_nat n) = Ok r' /\ RWf r' /\ rcap r' = rcap r /\
             rlen r' = rlen r + Z.of_nat n /\ rabs r' = firstn n m ++ rabs r.
Proof.
  induction fuel as [|fuel IH]; intros r n W Hn Hf HL.
  - assert (n = O) as -> by lia. exists r. cbn. splits; auto; lia.
  - destruct n as [|n].
    + exists r. cbn. splits; auto; lia.
    + cbn [ring_frontLoop].
      destruct (Z.eqb_spec (Z.of_nat (S n)) 0); [lia|].
      replace (Z.of_nat (S n) - 1) with (Z.of_nat n) by lia.
      rewrite (zget_ok _ _ 0) by (unfold zlen; lia). cbn [bind].
      rewrite Nat2Z.id.
      destruct (putInFront_spec r (nth n m 0) W) as (r1 & E1 & V1 & C1 & L1 & A1); [lia|].
      rewrite E1; cbn [bind].
      destruct (IH r1 n V1) as (r2 & E2 & V2 & C2 & L2 & A2); try lia.
      exists r2. splits; auto; try lia.
      rewrite A2, A1.
      replace (S n) with (n + 1)%nat by lia.
      assert (firstn (n + 1) m = firstn n m ++ [nth n m 0]) as ->.
      { clear - Hn. revert m Hn; induction n as [|n IH]; intros [|a m] H; cbn in *; try lia; auto.
        f_equal. apply IH; lia. }
      now rewrite <- app_assoc.
Qed.

Lemma putFront_ok r m : RWf r -> m <> [] -> zlen m + rcap r < 4294967296 ->
  rlen r + (zlen m + 1) <= rcap r ->
  exists r', ring_putBytesInFront r m = Ok (1, r') /\ RWf r' /\ rcap r' = rcap r /\
             rabs r' = removelast m ++ [33] ++ rabs r.
Proof.
  intros W Hm Hb H. pose proof W as (W1 & W2 & W3 & W4).
  assert (Hl : (1 <= length m)%nat) by (destruct m; cbn; [congruence|lia]).
  unfold ring_putBytesInFront. unfold zlen in *.
  rewrite u32_small by lia.
  destruct (Z.ltb_spec (rlen r + Z.of_nat (length m)) (rcap r)); [|lia].
  destruct (putInFront_spec r END W) as (r1 & E1 & V1 & C1 & L1 & A1); [lia|].
  rewrite E1; cbn [bind].
  rewrite u32_small by lia.
  replace (Z.of_nat (length m) - 1) with (Z.of_nat (length m - 1)) by lia.
  destruct (frontLoop_spec m (S (length m)) r1 (length m - 1)%nat V1)
    as (r2 & E2 & V2 & C2 & L2 & A2); try lia.
  rewrite E2; cbn [bind]. exists r2. splits; auto; try lia.
  rewrite A2, A1. cbn. f_equal.
  rewrite removelast_firstn_len. f_equal. lia.
Qed.

Lemma putFront_full r m : RWf r -> zlen m + rcap r < 4294967296 ->
  ~ rlen r + (zlen m + 1) <= rcap r -> ring_putBytesInFront r m = Ok (0, r).
Proof.
  intros (W1 & W2 & W3 & W4) Hm H. pose proof (zlen_nonneg m).
  unfold ring_putBytesInFront. rewrite u32_small by lia.
  destruct (Z.ltb_spec (rlen r + zlen m) (rcap r)); [lia|reflexivity].
Qed.

(** getByte *)
Lemma getByte_empty r : rlen r = 0 -> ring_getByte r = Ok (33, r).
Proof. intros H. unfold ring_getByte. rewrite H. reflexivity. Qed.

Lemma rabs_nil_len r : RWf r -> rabs r = [] -> rlen r = 0.
Proof. intros W H. rewrite <- (zlen_rabs r W), H. reflexivity. Qed.

Lemma len_rabs_nil r : RWf r -> rlen r = 0 -> rabs r = [].
Proof. intros W H. unfold rabs. rewrite H. reflexivity. Qed.

Lemma getByte_ok r b q : RWf r -> rabs r = b :: q ->
  exists r', ring_getByte r = Ok (b, r') /\ RWf r' /\ rcap r' = rcap r /\
             rlen r' = rlen r - 1 /\ rabs r' = q.
Proof.
  intros W HA. pose proof W as (W1 & W2 & W3 & W4).
  pose proof (zlen_rabs r W) as HL. rewrite HA, zlen_cons in HL. pose proof (zlen_nonneg q).
  unfold ring_getByte.
  destruct (Z.ltb_spec 0 (rlen r)); [|lia].
  rewrite (zget_ok _ _ 0) by lia. cbn [bind].
  rewrite u32_small by lia. rewrite umod_ok by lia. cbn [bind].
  pose proof (nth_rabs r 0 W ltac:(lia)) as HZ. rewrite HA in HZ. cbn [Z.to_nat nth_error] in HZ.
  unfold ridx in HZ. rewrite Z.add_0_r, Z.mod_small in HZ by lia.
  injection HZ as <-.
  eexists; split; [reflexivity|].
  match goal with |- RWf ?x /\ _ => set (r' := x) end.
  assert (W' : RWf r').
  { unfold RWf, r'; cbn. pose proof (Z.mod_pos_bound (rpos r + 1) (rcap r)). lia. }
  splits; try exact W'; try (cbn; lia).
  apply rabs_eq; auto. { cbn. lia. }
  intros k Hk. cbn in Hk.
  pose proof (nth_rabs r (k + 1) W ltac:(lia)) as Hk1. rewrite HA in Hk1.
  replace (Z.to_nat (k + 1)) with (S (Z.to_nat k)) in Hk1 by lia. cbn [nth_error] in Hk1.
  rewrite Hk1. f_equal. unfold ridx, r'; cbn.
  rewrite Zplus_mod_idemp_l. do 3 f_equal. ring.
Qed.

Lemma msgLoop_spec fuel : forall r bufsize n, RWf r ->
  (Z.to_nat (rlen r) < fuel)%nat -> n + zlen (before_mark (rabs r)) < bufsize -> 0 <= n ->
  exists r', ring_msgLoop fuel r bufsize n = Ok (before_mark (rabs r) ++ [33], r') /\
             RWf r' /\ rcap r' = rcap r /\ rabs r' = after_mark (rabs r).
Proof.
  induction fuel as [|fuel IH]; intros r B n W Hf HB Hn; [lia|].
  cbn [ring_msgLoop].
  destruct (rabs r) as [|b q] eqn:HA.
  - rewrite getByte_empty by now apply rabs_nil_len. cbn [bind].
    cbn in HB. rewrite zlen_nil in HB.
    destruct (Z.ltb_spec n B); [|lia].
    exists r. cbn. splits; auto; apply W.
  - destruct (getByte_ok r b q W HA) as (r1 & E1 & V1 & C1 & L1 & A1).
    rewrite E1; cbn [bind].
    cbn [before_mark after_mark] in *.
    assert (Hq : n < B).
    { destruct (b =? 33); [rewrite zlen_nil in HB; lia|].
      rewrite zlen_cons in HB. pose proof (zlen_nonneg (before_mark q)). lia. }
    destruct (Z.ltb_spec n B); [|lia].
    unfold END. destruct (Z.eqb_spec b 33) as [->|Hb].
    + exists r1. splits; auto; apply V1.
    + rewrite zlen_cons in HB.
      pose proof (zlen_rabs r W) as HL. rewrite HA, zlen_cons in HL. pose proof (zlen_nonneg q).
      destruct (IH r1 B (n + 1) V1) as (r2 & E2 & V2 & C2 & A2); try lia.
      { rewrite A1. lia. }
      rewrite A1 in E2, A2. rewrite E2; cbn [bind].
      exists r2. splits; auto; try apply V2. lia.
Qed.

Lemma getMessage_ok r B : RWf r -> zlen (before_mark (rabs r)) < B ->
  exists r', ring_getMessage r B = Ok (before_mark (rabs r), r') /\
             RWf r' /\ rcap r' = rcap r /\ rabs r' = after_mark (rabs r).
Proof.
  intros W HB. unfold ring_getMessage.
  destruct (msgLoop_spec (S (Z.to_nat (rlen r))) r B 0 W) as (r' & E & V & C & A); try lia.
  rewrite E; cbn [bind]. rewrite removelast_last. eauto.
Qed.

(** the exact overrun condition of getMessage *)
Lemma msgLoop_overrun fuel : forall r B n, RWf r ->
  (Z.to_nat (rlen r) < fuel)%nat -> B <= n + zlen (before_mark (rabs r)) -> 0 <= n <= B ->
  ring_msgLoop fuel r B n = Ub OobWrite.
Proof.
  induction fuel as [|fuel IH]; intros r B n W Hf HB Hn; [lia|].
  cbn [ring_msgLoop].
  destruct (rabs r) as [|b q] eqn:HA.
  - rewrite getByte_empty by now apply rabs_nil_len. cbn [bind].
    cbn in HB. rewrite zlen_nil in HB.
    destruct (Z.ltb_spec n B); [lia|reflexivity].
  - destruct (getByte_ok r b q W HA) as (r1 & E1 & V1 & C1 & L1 & A1).
    rewrite E1; cbn [bind].
    cbn [before_mark] in *.
    destruct (Z.ltb_spec n B); [|reflexivity].
    unfold END. destruct (Z.eqb_spec b 33) as [->|Hb].
    + rewrite zlen_nil in HB; lia.
    + rewrite zlen_cons in HB.
      pose proof (zlen_rabs r W) as HL. rewrite HA, zlen_cons in HL. pose proof (zlen_nonneg q).
      rewrite (IH r1 B (n + 1) V1); auto; try lia.
      rewrite A1. lia.
Qed.

Lemma getMessage_overrun r B : RWf r -> 0 <= B <= zlen (before_mark (rabs r)) ->
  ring_getMessage r B = Ub OobWrite.
Proof.
  intros W HB. unfold ring_getMessage. rewrite msgLoop_overrun; auto; lia.
Qed.

Lemma getFromBack_empty r : rlen r = 0 -> ring_getFromBack r = Ok (0, r).
Proof. intros H. unfold ring_getFromBack. rewrite H. reflexivity. Qed.

Lemma getFromBack_ok r b q : RWf r -> rabs r = q ++ [b] ->
  exists r', ring_getFromBack r = Ok (b, r') /\ RWf r' /\ rcap r' = rcap r /\ rabs r' = q.
Proof.
  intros W HA. pose proof W as (W1 & W2 & W3 & W4).
  pose proof (zlen_rabs r W) as HL. rewrite HA, zlen_app in HL. pose proof (zlen_nonneg q).
  change (zlen [b]) with 1 in HL.
  unfold ring_getFromBack.
  destruct (Z.ltb_spec 0 (rlen r)); [|lia].
  rewrite (u32_small (rpos r + rlen r)) by lia.
  rewrite u32_small by lia. rewrite umod_ok by lia. cbn [bind].
  pose proof (ridx_range r (rlen r - 1) W) as HR. unfold ridx in HR.
  replace (rpos r + rlen r - 1) with (rpos r + (rlen r - 1)) by ring.
  rewrite (zget_ok _ _ 0) by lia. cbn [bind].
  pose proof (nth_rabs r (rlen r - 1) W ltac:(lia)) as Hb.
  rewrite HA in Hb. unfold zlen in HL.
  rewrite nth_error_app2 in Hb by lia.
  replace (Z.to_nat (rlen r - 1) - length q)%nat with O in Hb by lia.
  cbn in Hb. injection Hb as ->. unfold ridx.
  eexists; split; [reflexivity|].
  match goal with |- RWf ?x /\ _ => set (r' := x) end.
  assert (W' : RWf r') by (unfold RWf, r'; cbn; lia).
  splits; try exact W'; try (cbn; lia).
  apply rabs_eq; auto. { unfold zlen; cbn. lia. }
  intros k Hk. cbn in Hk.
  pose proof (nth_rabs r k W ltac:(lia)) as Hk1. rewrite HA in Hk1.
  rewrite nth_error_app1 in Hk1 by lia. rewrite Hk1. reflexivity.
Qed.

Lemma peek_total r i : RWf r -> exists b, ring_peek r i = Ok b.
Proof.
  intros W. pose proof W as (W1 & W2 & W3 & W4). unfold ring_peek.
  rewrite umod_ok by lia. cbn [bind].
  pose proof (Z.mod_pos_bound (u32 (rpos r + i)) (rcap r)).
  rewrite (zget_ok _ _ 0) by lia. eauto.
Qed.

Lemma peek_ok r i : RWf r -> 0 <= i < rlen r ->
  exists b, ring_peek r i = Ok b /\ nth_error (rabs r) (Z.to_nat i) = Some b.
Proof.
  intros W Hi. pose proof W as (W1 & W2 & W3 & W4). unfold ring_peek.
  rewrite u32_small by lia.
  rewrite umod_ok by lia. cbn [bind].
  pose proof (Z.mod_pos_bound (rpos r + i) (rcap r)).
  rewrite (zget_ok _ _ 0) by lia. rewrite nth_rabs by auto. eauto.
Qed.

Lemma clear_spec r : RWf r -> RWf (ring_clear r) /\ rabs (ring_clear r) = [].
Proof. intros (W1 & W2 & W3 & W4). split; [unfold RWf; cbn; lia | reflexivity]. Qed.

(** one call *)
Lemma ring_step_refines r o : RWf r -> call_ok (rcap r) o ->
  exists x r', ring_step r o = Ok (x, r') /\ RWf r' /\ rcap r' = rcap r /\
               queue_call (rcap r) (rabs r) o x (rabs r').
Proof.
  intros W HO. pose proof (zlen_rabs r W) as HL.
  destruct o as [m|m| | |n| |i| | |]; cbn [ring_step call_ok] in *.
  - destruct (Z_le_dec (rlen r + (zlen m + 1)) (rcap r)) as [H|H].
    + destruct (putBytes_ok r m W H) as (r' & E & V & C & L & A).
      rewrite E; cbn [bind]. do 2 eexists; split; [reflexivity|].
      splits; auto; try apply V. rewrite A. apply QPutOk; lia.
    + rewrite putBytes_full by auto. cbn [bind]. do 2 eexists; split; [reflexivity|].
      splits; auto; try apply W. apply QPutFull; lia.
  - destruct HO as [Hb Hne].
    destruct (Z_le_dec (rlen r + (zlen m + 1)) (rcap r)) as [H|H].
    + destruct (putFront_ok r m W Hne Hb H) as (r' & E & V & C & A).
      rewrite E; cbn [bind]. do 2 eexists; split; [reflexivity|].
      splits; auto; try apply V. rewrite A. apply QFrontOk; auto; lia.
    + rewrite putFront_full by auto. cbn [bind]. do 2 eexists; split; [reflexivity|].
      splits; auto; try apply W. apply QFrontFull; lia.
  - destruct (rabs r) as [|b q] eqn:HA.
    + rewrite getByte_empty by now apply rabs_nil_len. cbn [bind].
      do 2 eexists; split; [reflexivity|]. rewrite HA.
      splits; auto; try apply W. constructor.
    + destruct (getByte_ok r b q W HA) as (r' & E & V & C & L & A).
      rewrite E; cbn [bind]. do 2 eexists; split; [reflexivity|].
      splits; auto; try apply V. rewrite A. constructor.
  - destruct (rabs r) as [|b q] eqn:HA.
    + rewrite getByte_empty by now apply rabs_nil_len. cbn [bind].
      do 2 eexists; split; [reflexivity|]. rewrite HA.
      splits; auto; try apply W. constructor.
    + destruct (getByte_ok r b q W HA) as (r' & E & V & C & L & A).
      rewrite E; cbn [bind]. do 2 eexists; split; [reflexivity|].
      splits; auto; try apply V. rewrite A. constructor.
  - assert (HB : zlen (before_mark (rabs r)) < n).
    { assert (forall q, zlen (before_mark q) <= zlen q) as HBM.
      { induction q as [|b q IH]; cbn; [lia|]. rewrite zlen_cons.
        destruct (b =? 33); [rewrite zlen_nil; pose proof (zlen_nonneg q); lia|].
        rewrite zlen_cons; lia. }
      specialize (HBM (rabs r)). destruct W as (_ & _ & _ & ?). lia. }
    destruct (getMessage_ok r n W HB) as (r' & E & V & C & A).
    rewrite E; cbn [bind]. do 2 eexists; split; [reflexivity|].
    splits; auto; try apply V. rewrite A. constructor.
  - destruct (rabs r) as [|b0 q0] eqn:HA.
    + rewrite getFromBack_empty by now apply rabs_nil_len. cbn [bind].
      do 2 eexists; split; [reflexivity|]. rewrite HA.
      splits; auto; try apply W. constructor.
    + destruct (@exists_last _ (b0 :: q0)) as (q & b & Eq); [discriminate|].
      rewrite Eq in HA |- *.
      destruct (getFromBack_ok r b q W HA) as (r' & E & V & C & A).
      rewrite E; cbn [bind]. do 2 eexists; split; [reflexivity|].
      splits; auto; try apply V. rewrite A. constructor.
  - destruct (Z_lt_le_dec i (rlen r)) as [H|H].
    + destruct (peek_ok r i W ltac:(lia)) as (b & E & N).
      rewrite E; cbn [bind]. do 2 eexists; split; [reflexivity|].
      splits; auto; try apply W. now constructor.
    + destruct (peek_total r i W) as (b & E).
      rewrite E; cbn [bind]. do 2 eexists; split; [reflexivity|].
      splits; auto; try apply W. apply QPeekBeyond; lia.
  - destruct (clear_spec r W) as [V A].
    do 2 eexists; split; [reflexivity|]. rewrite A.
    splits; auto; try apply V. constructor.
  - do 2 eexists; split; [reflexivity|]. splits; auto; try apply W.
    unfold ring_getSize. rewrite <- HL. constructor.
  - do 2 eexists; split; [reflexivity|]. splits; auto; try apply W.
    unfold ring_getCapacity. constructor.
Qed.

Lemma ring_run_refines ops : forall r, RWf r -> Forall (call_ok (rcap r)) ops ->
  exists xs r', ring_run r ops = Ok (xs, r') /\ RWf r' /\ rcap r' = rcap r /\
                queue_calls (rcap r) (rabs r) ops xs (rabs r').
Proof.
  induction ops as [|o ops IH]; intros r W H.
  - do 2 eexists; split; [reflexivity|]. splits; auto; try apply W. constructor.
  - inversion H as [|o' ops' Ho Hos]; subst.
    destruct (ring_step_refines r o W Ho) as (x & r1 & E1 & V1 & C1 & Q1).
    destruct (IH r1 V1) as (xs & r2 & E2 & V2 & C2 & Q2).
    { now rewrite C1. }
    cbn [ring_run]. rewrite E1; cbn [bind]. rewrite E2; cbn [bind].
    do 2 eexists; split; [reflexivity|]. splits; auto; try apply V2; try lia.
    rewrite C1 in Q2. econstructor; eauto.
Qed.

Lemma RWf_new junk : 1 <= zlen junk < 2147483648 -> RWf (ring_new junk).
Proof. intros H. unfold RWf, ring_new; cbn. lia. Qed.

Lemma ring_refines_queue junk ops : 1 <= zlen junk < 2147483648 ->
  Forall (call_ok (zlen junk)) ops ->
  exists outs r' q', ring_run (ring_new junk) ops = Ok (outs, r') /\
    queue_calls (zlen junk) [] ops outs q' /\
    ring_getSize r' = zlen q' /\ zlen q' <= zlen junk.
Proof.
  intros H HO.
  destruct (ring_run_refines ops (ring_new junk) (RWf_new junk H) HO)
    as (xs & r' & E & V & C & Q).
  exists xs, r', (rabs r'). splits; auto.
  - unfold ring_getSize. now rewrite zlen_rabs.
  - rewrite zlen_rabs by auto. destruct V as (_ & _ & _ & V). cbn in C. lia.
Qed.

(** ** C03 *)

Definition enc (ms : list (list Z)) : list Z := flat_map (fun m => m ++ [33]) ms.

Lemma enc_app a b : enc (a ++ b) = enc a ++ enc b.
Proof. unfold enc. now rewrite flat_map_app. Qed.

Lemma before_mark_free m q : ~ In 33 m -> before_mark (m ++ 33 :: q) = m.
Proof.
  induction m as [|b m IH]; cbn; intros H; auto.
  destruct (Z.eqb_spec b 33); [exfalso; apply H; auto|].
  f_equal. apply IH. tauto.
Qed.

Lemma after_mark_free m q : ~ In 33 m -> after_mark (m ++ 33 :: q) = q.
Proof.
  induction m as [|b m IH]; cbn; intros H; auto.
  destruct (Z.eqb_spec b 33); [exfalso; apply H; auto|]. apply IH; tauto.
Qed.

Lemma msg_client_stream cap ops : msg_client cap ops ->
  forall pend outs q', Forall (fun m => ~ In 33 m) pend ->
  queue_calls cap (enc pend) ops outs q' ->
  exists rest, pend ++ accepted ops outs = delivered ops outs ++ rest /\ q' = enc rest /\
               Forall (fun m => ~ In 33 m) rest.
Proof.
  induction 1 as [|m os Hm Hb MC IH|n os Hn MC IH]; intros pend outs q' HP HQ.
  - inversion HQ; subst. exists pend. cbn. rewrite app_nil_r. auto.
  - inversion HQ as [|? ? x q1 ? xs ? Hc Hcs]; subst.
    inversion Hc; subst.
    + rewrite <- (app_nil_r (m ++ [33])) in Hcs.
      change ((m ++ [33]) ++ []) with (enc [m]) in Hcs. rewrite <- enc_app in Hcs.
      destruct (IH (pend ++ [m]) xs q') as (rest & E1 & E2 & E3); auto.
      { apply Forall_app; auto. }
      exists rest. cbn. rewrite <- E1, <- app_assoc. auto.
    + destruct (IH pend xs q') as (rest & E1 & E2 & E3); auto.
      exists rest. cbn. auto.
  - inversion HQ as [|? ? x q1 ? xs ? Hc Hcs]; subst.
    inversion Hc; subst.
    inversion Hcs as [|? ? y q2 ? ys ? Hd Hds]; subst.
    inversion Hd; subst.
    cbn [accepted delivered].
    destruct pend as [|p pend].
    + cbn in Hds |- *. destruct (IH [] ys q') as (rest & E1 & E2 & E3); auto.
      exists rest. cbn in E1. auto.
    + inversion HP as [|? ? Hp HP']; subst.
      cbn [enc flat_map] in Hds |- *. fold (enc pend) in Hds |- *.
      rewrite <- app_assoc in Hds |- *. cbn [app] in Hds |- *.
      rewrite before_mark_free by auto. rewrite after_mark_free in Hds by auto.
      destruct (IH pend ys q') as (rest & E1 & E2 & E3); auto.
      exists rest.
      destruct (Z.eqb_spec (zlen (p ++ 33 :: enc pend)) 0) as [E|E].
      { rewrite zlen_app, zlen_cons in E. pose proof (zlen_nonneg p). pose proof (zlen_nonneg (enc pend)). lia. }
      cbn. rewrite <- E1. auto.
Qed.

Lemma msg_client_ok cap ops : msg_client cap ops -> Forall (call_ok cap) ops.
Proof. induction 1; repeat constructor; auto. Qed.

Lemma ring_message_stream junk ops : 1 <= zlen junk < 2147483648 ->
  msg_client (zlen junk) ops ->
  exists outs r' rest,
    ring_run (ring_new junk) ops = Ok (outs, r') /\
    accepted ops outs = delivered ops outs ++ rest /\
    (ring_getSize r' = 0 -> rest = []).
Proof.
  intros H MC.
  destruct (ring_refines_queue junk ops H (msg_client_ok _ _ MC)) as (outs & r' & q' & E & Q & S & _).
  destruct (msg_client_stream _ _ MC [] outs q' (Forall_nil _) Q) as (rest & E1 & E2 & E3).
  exists outs, r', rest. splits; auto.
  intros HS. rewrite HS in S. subst q'.
  destruct rest as [|m rest]; auto. cbn in S. rewrite !zlen_app in S.
  change (zlen [33]) with 1 in S.
  pose proof (zlen_nonneg m). pose proof (zlen_nonneg (enc rest)). unfold enc in *. lia.
Qed.

(** ** C02, C04 for every reachable buffer *)

Lemma ring_reach junk ops outs r : 1 <= zlen junk < 2147483648 ->
  Forall (call_ok (zlen junk)) ops -> ring_run (ring_new junk) ops = Ok (outs, r) ->
  RWf r /\ rcap r = zlen junk /\ queue_calls (zlen junk) [] ops outs (rabs r).
Proof.
  intros H HO E.
  destruct (ring_run_refines ops (ring_new junk) (RWf_new junk H) HO)
    as (xs & r' & E' & V & C & Q).
  rewrite E in E'. injection E' as -> ->. auto.
Qed.

Lemma ring_putBytes_allornothing junk ops outs r m :
  1 <= zlen junk < 2147483648 -> Forall (call_ok (zlen junk)) ops ->
  ring_run (ring_new junk) ops = Ok (outs, r) ->
  zlen m + zlen junk < 4294967296 ->
  (zlen m + 1 <= ring_getCapacity r - ring_getSize r /\
   exists r', ring_putBytes r m = Ok (STATUS_OK, r') /\
              ring_getSize r' = ring_getSize r + (zlen m + 1) /\
              ring_getCapacity r' = ring_getCapacity r)
  \/ (~ zlen m + 1 <= ring_getCapacity r - ring_getSize r /\
      ring_putBytes r m = Ok (STATUS_FULL, r)).
Proof.
  intros H HO E Hm.
  destruct (ring_reach _ _ _ _ H HO E) as (W & C & _).
  unfold ring_getCapacity, ring_getSize.
  destruct (Z_le_dec (zlen m + 1) (rcap r - rlen r)) as [L|L].
  - left. split; auto. destruct (putBytes_ok r m W ltac:(lia)) as (r' & E' & V & C' & L' & A).
    exists r'. splits; auto; lia.
  - right. split; auto. apply putBytes_full; auto; lia.
Qed.

Lemma peek_of_abs r i : RWf r -> 0 <= i < rlen r ->
  ring_peek r i = match nth_error (rabs r) (Z.to_nat i) with Some b => Ok b | None => Ub OobRead end.
Proof. intros W H. destruct (peek_ok r i W H) as (b & -> & ->). reflexivity. Qed.

Lemma ring_front_actual junk ops outs r m bufsize :
  1 <= zlen junk < 2147483648 -> Forall (call_ok (zlen junk)) ops ->
  ring_run (ring_new junk) ops = Ok (outs, r) ->
  zlen m + zlen junk < 4294967296 -> m <> [] -> ~ In 33 m -> zlen m <= bufsize ->
  zlen m + 1 <= ring_getCapacity r - ring_getSize r ->
  exists r1 r2,
    ring_putBytesInFront r m = Ok (STATUS_OK, r1) /\
    ring_getMessage r1 bufsize = Ok (removelast m, r2) /\
    ring_getSize r2 = ring_getSize r /\
    (forall i, 0 <= i < ring_getSize r -> ring_peek r2 i = ring_peek r i).
Proof.
  intros H HO E Hm Hne Hin HB L.
  destruct (ring_reach _ _ _ _ H HO E) as (W & C & _).
  unfold ring_getCapacity, ring_getSize in *.
  destruct (putFront_ok r m W Hne ltac:(lia) ltac:(lia)) as (r1 & E1 & V1 & C1 & A1).
  assert (Hin' : ~ In 33 (removelast m)).
  { intros HI. apply Hin. clear - HI. induction m as [|a m IH]; cbn in *; auto.
    destruct m; cbn in *; auto. destruct HI; auto. }
  cbn [app] in A1.
  assert (HR : zlen (removelast m) = zlen m - 1).
  { destruct (exists_last Hne) as (m' & b & ->). rewrite removelast_last, zlen_app.
    change (zlen [b]) with 1. lia. }
  destruct (getMessage_ok r1 bufsize V1) as (r2 & E2 & V2 & C2 & A2).
  { rewrite A1, before_mark_free by auto. lia. }
  rewrite A1, before_mark_free in E2 by auto. rewrite A1, after_mark_free in A2 by auto.
  exists r1, r2. splits; auto.
  - rewrite <- (zlen_rabs r2 V2), <- (zlen_rabs r W), A2. reflexivity.
  - intros i Hi. rewrite (peek_of_abs r i) by auto. rewrite peek_of_abs, A2; auto.
    rewrite <- (zlen_rabs r2 V2), A2, zlen_rabs; auto.
Qed.
