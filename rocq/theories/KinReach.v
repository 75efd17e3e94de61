(** The inverse kinematics succeeds exactly on the reachable poses. *)
From Verif Require Import Base Arith RobotModel KinModel KinSpec KinProofs KinEuler KinInv KinWrist KinSolve KinNan.
From Coq Require Import Reals Lra Psatz.
Open Scope R_scope.

Lemma quot_iff a b : 0 < b -> (-1 <= a / b <= 1 <-> - b <= a <= b).
Proof.
  intros H. assert (E : a = a / b * b) by (field; lra). set (q := a / b) in *. clearbody q. subst a.
  split; intros [A B]; split; try nra.
Qed.
Lemma side_iff d r : 0 < r -> (-1 <= - d / r <= 1 <-> Rabs d <= r).
Proof.
  intros H. rewrite quot_iff by exact H. split.
  - intros [A B]. apply Rabs_le. lra.
  - intros A. pose proof (Rle_abs d). pose proof (Rle_abs (- d)) as C. rewrite Rabs_Ropp in C. lra.
Qed.
Lemma tri_iff a b c : 0 < a -> 0 < b -> 0 < c ->
  (-1 <= (a * a + b * b - c * c) / (2 * a * b) <= 1 <-> Rabs (a - b) <= c <= a + b).
Proof.
  intros A B C. rewrite quot_iff by nra. split.
  - intros [H1 H2]. split.
    + apply Rabs_le. split; nra.
    + nra.
  - intros [H1 H2]. pose proof (Rle_abs (a - b)). pose proof (Rle_abs (- (a - b))) as D. rewrite Rabs_Ropp in D.
    split; nra.
Qed.

Section Reach.
Context (g : geom R) (p : V6 R).
Hypothesis G : documented g.
Hypothesis S : as_shipped g.
Notation K := (kin_new RA g).
Let w : vecR := wrist g p.
Let R0 : R := solve_r0 RA K w.
Let px : R := plane_x RA R0 w.

Lemma px_eq : 0 < horizontal w -> Rabs (offset g) <= horizontal w ->
  px = sqrt (horizontal w * horizontal w - offset g * offset g).
Proof.
  intros H1 H2. rewrite <- off_eq in *. change (horizontal w) with (hd (vx w) (vy w)) in *.
  apply (side_iff _ _ H1) in H2. destruct (r0_correct (off g) w H1 H2) as [A _].
  unfold px, plane_x. ra. unfold R0. rewrite solve_r0_RA. exact A.
Qed.
Lemma reach_eq : 0 < horizontal w -> Rabs (offset g) <= horizontal w ->
  hd (px - vx (g0 g)) (vz w - vz (g0 g)) = reach g w.
Proof. intros H1 H2. unfold reach. rewrite <- px_eq by assumption. reflexivity. Qed.

Lemma solvable_iff : solvable g p <-> reachable g p.
Proof.
  unfold solvable, reachable. cbv zeta. fold w. fold R0. fold px.
  change (hd (vx w) (vy w)) with (horizontal w). rewrite off_eq.
  assert (T : 0 < horizontal w -> Rabs (offset g) <= horizontal w ->
     0 < upper_arm g -> 0 < fore_arm g -> 0 < reach g w ->
     forall L, L = reach g w ->
     ((-1 <= (L * L - fore_arm g * fore_arm g + upper_arm g * upper_arm g) / (2 * L * upper_arm g) <= 1) /\
      (-1 <= (- (L * L) + fore_arm g * fore_arm g + upper_arm g * upper_arm g) / (2 * fore_arm g * upper_arm g) <= 1))
     <-> Rabs (upper_arm g - fore_arm g) <= reach g w <= upper_arm g + fore_arm g).
  { intros _ _ HV HW HL L ->. set (L := reach g w) in *. set (V := upper_arm g) in *. set (W := fore_arm g) in *.
    replace (L * L - W * W + V * V) with (L * L + V * V - W * W) by ring.
    replace (- (L * L) + W * W + V * V) with (W * W + V * V - L * L) by ring.
    rewrite !tri_iff by assumption. clearbody L V W. split.
    - intros [_ [A B]]. rewrite Rabs_minus_sym. lra.
    - intros [A B]. rewrite (Rabs_minus_sym W V). split; [|lra].
      pose proof (Rle_abs (V - W)). pose proof (Rle_abs (- (V - W))) as D. rewrite Rabs_Ropp in D.
      split; [|lra]. apply Rabs_le. lra. }
  split.
  - intros (H1 & H2 & HV & HW & HL & A & B). apply (side_iff _ _ H1) in H2.
    pose proof (reach_eq H1 H2) as E. rewrite E in HL. specialize (T H1 H2 HV HW HL _ E).
    destruct T as [T _]. specialize (T (conj A B)). tauto.
  - intros (H1 & H2 & HV & HW & HL & A). pose proof (reach_eq H1 H2) as E.
    destruct (T H1 H2 HV HW HL _ E) as [_ T']. specialize (T' A). rewrite (side_iff _ _ H1).
    destruct T' as [T1 T2].
    split; [assumption|]. split; [assumption|]. split; [assumption|]. split; [assumption|].
    split; [|split]; [rewrite E; assumption|exact T1|exact T2].
Qed.




Lemma v1_RA : k_v1 _ K = upper_arm g.
Proof. reflexivity. Qed.
Lemma fore_RA : forearm_len RA K = fore_arm g.
Proof. reflexivity. Qed.
Lemma proj_RA (x z : R) : proj_sq RA K x z = hd (x - vx (g0 g)) (z - vz (g0 g)) * hd (x - vx (g0 g)) (z - vz (g0 g)).
Proof.
  unfold hd. rewrite sqrt_sqrt by apply sum2_nonneg. unfold proj_sq, KinModel.sq, kin_new, fnum. cbn [k_j1 vx vz]. ra. ring.
Qed.

Lemma all_ok_iff : all_ok g p <-> solvable g p.
Proof.
  unfold all_ok, solvable, ok0, ok1, ok2, den1, den2, num1, num2. rewrite (wrist_RA g p G S). fold w R0 px.
  set (L := hd (px - vx (g0 g)) (vz w - vz (g0 g))).
  rewrite !proj_RA. fold L. rewrite v1_RA, fore_RA.
  assert (EL : sqrt (L * L) = L) by (apply sqrt_square, sqrt_pos). rewrite EL.
  assert (EH : length2 RA (- vy w) (vx w) = hd (vx w) (vy w)).
  { unfold length2, KinModel.sq, hd. ra. f_equal. ring. }
  rewrite EH.
  assert (EO : k_j4y _ K = off g) by (unfold kin_new, off, fnum; cbn [k_j4y]; ra; ring). rewrite EO.
  assert (PV : 0 <= upper_arm g) by apply sqrt_pos. assert (PW : 0 <= fore_arm g) by apply sqrt_pos.
  assert (PL : 0 <= L) by apply sqrt_pos. assert (PH : 0 <= hd (vx w) (vy w)) by apply sqrt_pos.
  set (V := upper_arm g) in *. set (W := fore_arm g) in *. set (H := hd (vx w) (vy w)) in *. clearbody L V W H.
  split.
  - intros ((H1 & H2) & (A1 & A2) & (B1 & B2)).
    assert (0 < H) by lra.
    assert (0 < V) by (destruct PV as [|<-]; [assumption|exfalso; apply B1; ring]).
    assert (0 < W) by (destruct PW as [|<-]; [assumption|exfalso; apply B1; ring]).
    assert (0 < L) by (destruct PL as [|<-]; [assumption|exfalso; apply A1; ring]). tauto.
  - intros (H1 & H2 & HV & HW & HL & A & B).
    assert (0 < 2 * L * V) by nra. assert (0 < 2 * W * V) by nra.
    repeat split; try tauto; lra.
Qed.
End Reach.
