(** * GfxProofs: what the drawing operations do to the pixels *)
From Verif Require Import Base DisplayModel PropDisplay GfxFont GfxModel.
Open Scope Z_scope.

(** ** Specification *)
(** a frame is 512 bytes; pixel (i, j) is bit j mod 8 of the byte of column i in page j / 8 *)
Definition frame_ok (b : frame) : Prop := zlen b = 512 /\ Forall (fun v => 0 <= v < 256) b.
Definition lit (b : frame) (i j : Z) : bool := Z.testbit (nth (Z.to_nat (i + j / 8 * 128)) b 0) (j mod 8).
Definition on_screen (i j : Z) : Prop := 0 <= i < 128 /\ 0 <= j < 32.
(** [b'] is [b] with exactly the pixels of the shape [S] on the screen switched on *)
Definition adds (b b' : frame) (S : Z -> Z -> Prop) : Prop :=
  frame_ok b' /\ forall i j, on_screen i j -> (lit b' i j = true <-> lit b i j = true \/ S i j).
Definition int16 (z : Z) : Prop := -32768 <= z <= 32767.

(** ** Proofs *)
Lemma adds_ext b b' S S' : (forall i j, on_screen i j -> (S i j <-> S' i j)) -> adds b b' S -> adds b b' S'.
Proof. intros E [O A]. split; [exact O|]. intros i j H. rewrite (A i j H), (E i j H). reflexivity. Qed.
Lemma adds_none b S : frame_ok b -> (forall i j, on_screen i j -> ~ S i j) -> adds b b S.
Proof. intros O N. split; [exact O|]. intros i j H. specialize (N i j H). tauto. Qed.
Lemma adds_both b b1 b2 S1 S2 : adds b b1 S1 -> adds b1 b2 S2 -> adds b b2 (fun i j => S1 i j \/ S2 i j).
Proof. intros [_ A1] [O A2]. split; [exact O|]. intros i j H. rewrite (A2 i j H), (A1 i j H). tauto. Qed.

Lemma lor_byte a m : 0 <= a < 256 -> 0 <= m < 256 -> 0 <= Z.lor a m < 256.
Proof.
  intros Ha Hm. split; [apply Z.lor_nonneg; lia|]. destruct (Z.eq_dec (Z.lor a m) 0) as [->|N]; [lia|].
  change 256 with (2 ^ 8). apply Z.log2_lt_pow2; [assert (0 <= Z.lor a m) by (apply Z.lor_nonneg; lia); lia|].
  rewrite Z.log2_lor by lia. apply Z.max_lub_lt.
  - destruct (Z.eq_dec a 0) as [->|]; [reflexivity|]. apply Z.log2_lt_pow2; lia.
  - destruct (Z.eq_dec m 0) as [->|]; [reflexivity|]. apply Z.log2_lt_pow2; lia.
Qed.
Lemma Forall_upd {A} (P : A -> Prop) l n v : Forall P l -> P v -> Forall P (upd l n v).
Proof. intros F H. revert n. induction F as [|a l Ha F IH]; intros [|n]; cbn [upd]; constructor; auto. Qed.
Lemma Forall_nth_byte b n : Forall (fun v => 0 <= v < 256) b -> 0 <= nth n b 0 < 256.
Proof. intros F. revert n. induction F as [|a l Ha F IH]; intros [|n]; cbn [nth]; auto; lia. Qed.

(** writing a byte *)
Lemma put_byte b x p v : frame_ok b -> 0 <= x < 128 -> 0 <= p < 4 -> 0 <= v < 256 ->
  exists b', zset b (x + p * 128) v = Ok b' /\ frame_ok b' /\
    forall i j, on_screen i j -> lit b' i j = if (i =? x) && (j / 8 =? p) then Z.testbit v (j mod 8) else lit b i j.
Proof.
  intros [E F] X P V. rewrite zset_ok by lia. eexists. split; [reflexivity|]. split; [split; [rewrite zlen_upd; exact E|now apply Forall_upd]|].
  intros i j [I J]. unfold lit. pose proof (Z.div_mod j 8 ltac:(lia)) as D. pose proof (Z.mod_pos_bound j 8 ltac:(lia)) as M.
  destruct ((i =? x) && (j / 8 =? p)) eqn:C.
  - assert (i = x /\ j / 8 = p) as [-> ->] by lia. rewrite nth_upd_same; [reflexivity|]. unfold zlen in E. lia.
  - rewrite nth_upd_other; [reflexivity|]. intros Q. apply Z2Nat.inj in Q; lia.
Qed.
(** buffer[k] |= mask *)
Lemma or_byte b x p m : frame_ok b -> 0 <= x < 128 -> 0 <= p < 4 -> 0 <= m < 256 ->
  exists b', or_at b (x + p * 128) m = Ok b' /\ adds b b' (fun i j => i = x /\ j / 8 = p /\ Z.testbit m (j mod 8) = true).
Proof.
  intros O X P M. pose proof O as [E F]. unfold or_at. rewrite (zget_ok b _ 0) by lia. cbn [bind].
  pose proof (Forall_nth_byte b (Z.to_nat (x + p * 128)) F) as B.
  destruct (put_byte b x p _ O X P (lor_byte _ m B M)) as (b' & E' & O' & L). exists b'. split; [exact E'|]. split; [exact O'|].
  intros i j H. rewrite (L i j H). destruct ((i =? x) && (j / 8 =? p)) eqn:C.
  - assert (i = x /\ j / 8 = p) as [-> <-] by lia. rewrite Z.lor_spec, orb_true_iff. unfold lit. tauto.
  - split; [tauto|]. intros [?|(Q1 & Q2 & _)]; [assumption|]. exfalso; clear - C Q1 Q2; lia.
Qed.

Lemma land7 y : 0 <= y -> Z.land y 7 = y mod 8.
Proof. intros _. exact (Z.land_ones y 3 ltac:(lia)). Qed.
Lemma bit_byte j : 0 <= j < 8 -> 0 <= Z.shiftl 1 j < 256.
Proof. intros H. rewrite Z.shiftl_mul_pow2, Z.mul_1_l by lia. split; [apply Z.pow_nonneg; lia|]. change 256 with (2 ^ 8). apply Z.pow_lt_mono_r; lia. Qed.
Lemma bit_test j t : 0 <= j -> 0 <= t -> Z.testbit (Z.shiftl 1 j) t = (t =? j).
Proof. intros H T. rewrite Z.shiftl_mul_pow2, Z.mul_1_l, Z.pow2_bits_eqb by lia. apply Z.eqb_sym. Qed.
(** a single pixel by its byte *)
Lemma row_byte b x y : frame_ok b -> on_screen x y -> exists b', or_at b (x + y / 8 * 128) (Z.shiftl 1 (Z.land y 7)) = Ok b' /\ adds b b' (fun i j => i = x /\ j = y).
Proof.
  intros O [X Y]. rewrite land7 by lia. pose proof (Z.mod_pos_bound y 8 ltac:(lia)) as M. pose proof (Z.div_mod y 8 ltac:(lia)) as D.
  destruct (or_byte b x (y / 8) (Z.shiftl 1 (y mod 8)) O X ltac:(lia) (bit_byte _ M)) as (b' & E & A). exists b'. split; [exact E|].
  eapply adds_ext; [|exact A]. cbv beta. intros i j [I J]. pose proof (Z.mod_pos_bound j 8 ltac:(lia)) as MJ. pose proof (Z.div_mod j 8 ltac:(lia)) as DJ.
  rewrite bit_test, Z.eqb_eq by lia. split; [intros (-> & H1 & H2); lia|intros [-> ->]; auto].
Qed.

(** drawPixel *)
Lemma pixel_adds b x y : frame_ok b -> exists b', draw_pixel b x y = Ok b' /\ adds b b' (fun i j => i = x /\ j = y).
Proof.
  intros O. unfold draw_pixel. destruct ((x <? 0) || (128 <=? x) || (y <? 0) || (32 <=? y)) eqn:C.
  - exists b. split; [reflexivity|]. apply adds_none; [exact O|]. intros i j [I J] [-> ->]. lia.
  - apply row_byte; [exact O|]. split; lia.
Qed.

(** drawFastHLine *)
Lemma hloop_adds y n : 0 <= y < 32 -> forall x b, frame_ok b -> 0 <= x -> x + Z.of_nat n <= 128 ->
  exists b', hloop n b (y / 8 * 128 + x) (Z.shiftl 1 (Z.land y 7)) = Ok b' /\ adds b b' (fun i j => x <= i < x + Z.of_nat n /\ j = y).
Proof.
  intros Y. induction n as [|n IH]; intros x b O X W; cbn [hloop].
  - exists b. split; [reflexivity|]. apply adds_none; [exact O|]. intros; lia.
  - destruct (row_byte b x y O ltac:(split; lia)) as (b1 & E1 & A1). rewrite (Z.add_comm (y / 8 * 128) x), E1. cbn [bind].
    destruct (IH (x + 1) b1 (proj1 A1) ltac:(lia) ltac:(lia)) as (b2 & E2 & A2). replace (x + y / 8 * 128 + 1) with (y / 8 * 128 + (x + 1)) by lia. rewrite E2.
    exists b2. split; [reflexivity|]. eapply adds_ext; [|exact (adds_both _ _ _ _ _ A1 A2)]. cbv beta. intros; lia.
Qed.
Lemma hline_adds b x y w : frame_ok b -> int16 x -> int16 w -> -32768 <= x + w -> exists b', draw_hline b x y w = Ok b' /\ adds b b' (fun i j => x <= i < x + w /\ j = y).
Proof.
  intros O X W S. unfold int16 in *. unfold draw_hline. destruct ((y <? 0) || (32 <=? y)) eqn:CY.
  { exists b. split; [reflexivity|]. apply adds_none; [exact O|]. intros i j [I J] H. lia. }
  assert (exists x' w', (if x <? 0 then (0, i16 (w + x)) else (x, w)) = (x', w') /\ x' = Z.max x 0 /\ x' + w' = x + w) as (x' & w' & -> & EX & EW).
  { destruct (Z.ltb_spec x 0); do 2 eexists; (split; [reflexivity|]); [rewrite i16_id by lia|]; lia. }
  cbv beta iota zeta. assert (exists w2, (if 128 <? x' + w' then i16 (128 - x') else w') = w2 /\ x' + w2 = Z.min (x + w) 128) as (w2 & -> & E2).
  { destruct (Z.ltb_spec 128 (x' + w')); eexists; (split; [reflexivity|]); [rewrite i16_id by lia|]; lia. }
  destruct (Z.leb_spec w2 0).
  { exists b. split; [reflexivity|]. apply adds_none; [exact O|]. intros i j [I J] H1. lia. }
  destruct (hloop_adds y (Z.to_nat w2) ltac:(lia) x' b O ltac:(lia) ltac:(lia)) as (b' & E & A). exists b'. split; [exact E|].
  eapply adds_ext; [|exact A]. cbv beta. intros i j [I J]. lia.
Qed.

(** the masks of drawFastVLine *)
Definition zrange (n : nat) : list Z := map Z.of_nat (seq 0 n).
Lemma in_zrange n z : 0 <= z < Z.of_nat n -> In z (zrange n).
Proof. intros H. unfold zrange. rewrite <- (Z2Nat.id z) by lia. apply in_map, in_seq. lia. Qed.
Definition rows_mask (m lo hi : Z) : bool := (0 <=? m) && (m <? 256) && forallb (fun t => Bool.eqb (Z.testbit m t) ((lo <=? t) && (t <? hi))) (zrange 8).
Lemma rows_mask_spec m lo hi : rows_mask m lo hi = true -> 0 <= m < 256 /\ forall t, 0 <= t < 8 -> (Z.testbit m t = true <-> lo <= t < hi).
Proof.
  intros H. unfold rows_mask in H. apply andb_true_iff in H as [H1 H2]. split; [lia|]. intros t T. rewrite forallb_forall in H2.
  specialize (H2 t (in_zrange 8 t ltac:(lia))). apply eqb_prop in H2. rewrite H2. lia.
Qed.
Definition first_mask (md h : Z) : Z := let mask := nth (Z.to_nat (8 - md)) premask 0 in if h <? 8 - md then Z.land mask (Z.shiftr 255 (8 - md - h)) else mask.
Lemma first_mask_rows md h : 1 <= md < 8 -> 1 <= h <= 32 -> rows_mask (first_mask md h) md (Z.min 8 (md + h)) = true.
Proof.
  intros M H. assert (C : forallb (fun md => forallb (fun h => (md =? 0) || (h =? 0) || rows_mask (first_mask md h) md (Z.min 8 (md + h))) (zrange 33)) (zrange 8) = true) by (vm_compute; reflexivity).
  rewrite forallb_forall in C. specialize (C md (in_zrange 8 md ltac:(lia))). rewrite forallb_forall in C. specialize (C h (in_zrange 33 h ltac:(lia))). cbv beta in C. apply orb_true_iff in C as [C|C]; [clear - C M H; lia|exact C].
Qed.
Lemma last_mask_rows h : 1 <= h < 8 -> rows_mask (nth (Z.to_nat h) postmask 0) 0 h = true.
Proof.
  intros H. assert (C : forallb (fun h => (h =? 0) || rows_mask (nth (Z.to_nat h) postmask 0) 0 h) (zrange 8) = true) by (vm_compute; reflexivity).
  rewrite forallb_forall in C. specialize (C h (in_zrange 8 h ltac:(lia))). cbv beta in C. apply orb_true_iff in C as [C|C]; [clear - C H; lia|exact C].
Qed.
(** part of a column by its byte *)
Lemma col_byte b x p m lo hi : frame_ok b -> 0 <= x < 128 -> 0 <= p < 4 -> rows_mask m lo hi = true -> 0 <= lo -> hi <= 8 ->
  exists b', or_at b (p * 128 + x) m = Ok b' /\ adds b b' (fun i j => i = x /\ 8 * p + lo <= j < 8 * p + hi).
Proof.
  intros O X P M Lo Hi. apply rows_mask_spec in M as [M T]. rewrite (Z.add_comm (p * 128) x). destruct (or_byte b x p m O X P M) as (b' & E & A). exists b'. split; [exact E|].
  eapply adds_ext; [|exact A]. cbv beta. intros i j [I J]. pose proof (Z.mod_pos_bound j 8 ltac:(lia)) as MJ. pose proof (Z.div_mod j 8 ltac:(lia)) as DJ. rewrite T by exact MJ. lia.
Qed.
(** whole bytes *)
Lemma vsolid_adds x n : 0 <= x < 128 -> forall b p h, frame_ok b -> 0 <= p -> 0 <= h <= 8 * Z.of_nat n -> 8 * p + h <= 32 ->
  exists b' h' p', vsolid n b h (p * 128 + x) = Ok (b', h', p' * 128 + x) /\ 0 <= h' < 8 /\ p <= p' /\ 8 * p' + h' = 8 * p + h /\
    adds b b' (fun i j => i = x /\ 8 * p <= j < 8 * p').
Proof.
  intros X. induction n as [|n IH]; intros b p h O P H S; cbn [vsolid]; destruct (Z.leb_spec 8 h) as [L|L]; try lia.
  - exists b, h, p. split; [reflexivity|]. split; [lia|]. split; [lia|]. split; [lia|]. apply adds_none; [exact O|]. intros; lia.
  - destruct (put_byte b x p 255 O X ltac:(lia) ltac:(lia)) as (b1 & E1 & O1 & L1). rewrite (Z.add_comm (p * 128) x), E1. cbn [bind].
    replace (x + p * 128 + 128) with ((p + 1) * 128 + x) by lia. destruct (IH b1 (p + 1) (h - 8) O1 ltac:(lia) ltac:(lia) ltac:(lia)) as (b2 & h2 & p2 & E2 & H2 & P2 & S2 & A2).
    rewrite E2. exists b2, h2, p2. split; [reflexivity|]. split; [lia|]. split; [lia|]. split; [lia|].
    assert (A1 : adds b b1 (fun i j => i = x /\ j / 8 = p)).
    { split; [exact O1|]. intros i j Hs. rewrite (L1 i j Hs). pose proof (Z.mod_pos_bound j 8 ltac:(lia)) as MJ.
      assert (T : Z.testbit 255 (j mod 8) = true). { change 255 with (Z.ones 8). apply Z.ones_spec_low. lia. }
      destruct ((i =? x) && (j / 8 =? p)) eqn:C; [rewrite T; split; [intros _; right; lia|reflexivity]|]. split; [tauto|]. intros [?|[Q1 Q2]]; [assumption|]. exfalso; clear - C Q1 Q2; lia. }
    eapply adds_ext; [|exact (adds_both _ _ _ _ _ A1 A2)]. cbv beta. intros i j [I J]. pose proof (Z.mod_pos_bound j 8 ltac:(lia)) as MJ. pose proof (Z.div_mod j 8 ltac:(lia)) as DJ. lia.
  - exists b, h, p. split; [reflexivity|]. split; [lia|]. split; [lia|]. split; [lia|]. apply adds_none; [exact O|]. intros; lia.
Qed.
(** drawFastVLine *)
Lemma vline_adds b x y h : frame_ok b -> int16 y -> int16 h -> -32768 <= y + h -> exists b', draw_vline b x y h = Ok b' /\ adds b b' (fun i j => i = x /\ y <= j < y + h).
Proof.
  intros O Y H S. unfold int16 in *. unfold draw_vline. destruct ((x <? 0) || (128 <=? x)) eqn:CX.
  { exists b. split; [reflexivity|]. apply adds_none; [exact O|]. intros i j [I J] Q. lia. }
  assert (exists y' h', (if y <? 0 then (0, i16 (h + y)) else (y, h)) = (y', h') /\ y' = Z.max y 0 /\ y' + h' = y + h) as (y' & h' & -> & EY & EH).
  { destruct (Z.ltb_spec y 0); do 2 eexists; (split; [reflexivity|]); [rewrite i16_id by lia|]; lia. }
  cbv beta iota zeta. assert (exists h2, (if 32 <? y' + h' then i16 (32 - y') else h') = h2 /\ y' + h2 = Z.min (y + h) 32) as (h2 & -> & E2).
  { destruct (Z.ltb_spec 32 (y' + h')); eexists; (split; [reflexivity|]); [rewrite i16_id by lia|]; lia. }
  destruct (Z.leb_spec h2 0) as [N|N].
  { exists b. split; [reflexivity|]. apply adds_none; [exact O|]. intros i j [I J] H1. lia. }
  rewrite (Z.mod_small y'), (Z.mod_small h2) by lia. rewrite land7 by lia.
  assert (G : adds b b (fun _ _ => False)) by (apply adds_none; tauto).
  assert (X : 0 <= x < 128) by lia. assert (Y' : 0 <= y' < 32) by lia. assert (H' : 1 <= h2 <= 32 - y') by lia.
  assert (Q : exists b', (do (b0, h0, k, fin) <-
    (if y' mod 8 =? 0 then Ok (b, h2, y' / 8 * 128 + x, false)
     else do mask <- zget premask (8 - y' mod 8);
          do b0 <- or_at b (y' / 8 * 128 + x) (if h2 <? 8 - y' mod 8 then Z.land mask (Z.shiftr 255 (8 - y' mod 8 - h2)) else mask);
          Ok (if h2 <? 8 - y' mod 8 then (b0, h2, y' / 8 * 128 + x, true) else (b0, h2 - (8 - y' mod 8), y' / 8 * 128 + x + 128, false)));
   (if fin then Ok b0 else do (b1, h1, k0) <- vsolid 32 b0 h0 k; if h1 =? 0 then Ok b1 else do mask <- zget postmask (Z.land h1 7); or_at b1 k0 mask)) = Ok b' /\
   adds b b' (fun i j => i = x /\ y' <= j < y' + h2)).
  2:{ destruct Q as (b' & E & A). exists b'. split; [exact E|]. eapply adds_ext; [|exact A]. cbv beta. intros i j [I J]. lia. }
  clear EY EH E2 Y H S CX N y h h'. rename y' into y, h2 into h.
  pose proof (Z.mod_pos_bound y 8 ltac:(lia)) as My. pose proof (Z.div_mod y 8 ltac:(lia)) as Dy. set (md := y mod 8) in *. set (p := y / 8) in *. clearbody md p.
  (* the tail: rows from a page border on *)
  assert (Tail : forall b0 p0 h0, frame_ok b0 -> 0 <= p0 -> 0 <= h0 -> 8 * p0 + h0 <= 32 ->
    exists b', (do (b1, h1, k0) <- vsolid 32 b0 h0 (p0 * 128 + x); if h1 =? 0 then Ok b1 else do mask <- zget postmask (Z.land h1 7); or_at b1 k0 mask) = Ok b' /\
      adds b0 b' (fun i j => i = x /\ 8 * p0 <= j < 8 * p0 + h0)).
  { intros b0 p0 h0 O0 P0 H0 S0. destruct (vsolid_adds x 32 X b0 p0 h0 O0 P0 ltac:(lia) S0) as (b1 & h1 & p1 & E1 & H1 & P1 & S1 & A1). rewrite E1. cbn [bind].
    destruct (Z.eqb_spec h1 0) as [Z0|Z0].
    - exists b1. split; [reflexivity|]. eapply adds_ext; [|exact A1]. cbv beta. intros; lia.
    - rewrite land7, Z.mod_small by lia. rewrite (zget_ok postmask h1 0) by (change (zlen postmask) with 8; lia). cbn [bind].
      destruct (col_byte b1 x p1 _ 0 h1 (proj1 A1) X ltac:(lia) (last_mask_rows h1 ltac:(lia)) ltac:(lia) ltac:(lia)) as (b2 & E2 & A2). rewrite E2.
      exists b2. split; [reflexivity|]. eapply adds_ext; [|exact (adds_both _ _ _ _ _ A1 A2)]. cbv beta. intros; lia. }
  destruct (Z.eqb_spec md 0) as [Z0|Z0]; cbn [bind].
  - destruct (Tail b p h O ltac:(lia) ltac:(lia) ltac:(lia)) as (b' & E & A). exists b'. split; [exact E|]. eapply adds_ext; [|exact A]. cbv beta. intros; lia.
  - rewrite (zget_ok premask (8 - md) 0) by (change (zlen premask) with 8; lia). cbn [bind].
    destruct (col_byte b x p _ md _ O X ltac:(lia) (first_mask_rows md h ltac:(lia) ltac:(lia)) ltac:(lia) ltac:(lia)) as (b1 & E1 & A1). unfold first_mask in E1. cbv zeta in E1. rewrite E1. cbn [bind].
    destruct (Z.ltb_spec h (8 - md)) as [L|L]; cbn [bind].
    + exists b1. split; [reflexivity|]. eapply adds_ext; [|exact A1]. cbv beta. intros; lia.
    + replace (p * 128 + x + 128) with ((p + 1) * 128 + x) by lia. destruct (Tail b1 (p + 1) (h - (8 - md)) (proj1 A1) ltac:(lia) ltac:(lia) ltac:(lia)) as (b2 & E2 & A2). rewrite E2.
      exists b2. split; [reflexivity|]. eapply adds_ext; [|exact (adds_both _ _ _ _ _ A1 A2)]. cbv beta. intros; lia.
Qed.

(** fillRect *)
Lemma fill_adds y h e : int16 y -> int16 h -> -32768 <= y + h -> e <= 32767 -> forall n i b fuel, frame_ok b -> int16 i -> e <= i + Z.of_nat n -> (n <= fuel)%nat ->
  exists b', fill_loop fuel b i e y h = Ok b' /\ adds b b' (fun c j => i <= c < e /\ y <= j < y + h).
Proof.
  intros Y H S E. unfold int16 in *. induction n as [|n IH]; intros i b fuel O I D Fu.
  - exists b. split; [destruct fuel; cbn [fill_loop]; replace (i <? e) with false by lia; reflexivity|]. apply adds_none; [exact O|]. intros; lia.
  - destruct fuel as [|fuel]; [lia|]. cbn [fill_loop]. destruct (Z.ltb_spec i e) as [L|L].
    + destruct (vline_adds b i y h O Y H S) as (b1 & E1 & A1). rewrite E1. cbn [bind]. rewrite i16_id by lia.
      destruct (IH (i + 1) b1 fuel (proj1 A1) ltac:(lia) ltac:(lia) ltac:(lia)) as (b2 & E2 & A2). rewrite E2. exists b2. split; [reflexivity|].
      eapply adds_ext; [|exact (adds_both _ _ _ _ _ A1 A2)]. cbv beta. intros; lia.
    + exists b. split; [reflexivity|]. apply adds_none; [exact O|]. intros; lia.
Qed.

(** drawLine *)
(** [a] moved [k] steps towards [b] *)
Definition toward (a b k : Z) : Z := if a <? b then a + k else a - k.
(** [r] follows the slope m : M from 0 to m, never off by more than half a pixel *)
Definition follows (M m : Z) (r : Z -> Z) : Prop :=
  r 0 = 0 /\ r M = m /\ forall k, 0 <= k <= M -> 0 <= r k <= m /\ 2 * Z.abs (M * r k - k * m) <= M.
(** the pixels of a line: one for each column from end to end, or for each row if it is steep *)
Definition line_pixels (x0 y0 x1 y1 : Z) (r : Z -> Z) (i j : Z) : Prop :=
  if Z.abs (y1 - y0) <=? Z.abs (x1 - x0)
  then exists k, 0 <= k <= Z.abs (x1 - x0) /\ i = toward x0 x1 k /\ j = toward y0 y1 (r k)
  else exists k, 0 <= k <= Z.abs (y1 - y0) /\ j = toward y0 y1 k /\ i = toward x0 x1 (r k).

Definition brow (dx dy k : Z) : Z := (k * dy + dx - 1 - dx / 2) / dx.
Lemma brow_err dx dy k : 0 < dx -> 0 <= dx / 2 - k * dy + brow dx dy k * dx < dx.
Proof. intros D. unfold brow. pose proof (Z.div_mod (k * dy + dx - 1 - dx / 2) dx ltac:(lia)). pose proof (Z.mod_pos_bound (k * dy + dx - 1 - dx / 2) dx D). nia. Qed.
Lemma brow_unique dx dy k q : 0 < dx -> 0 <= dx / 2 - k * dy + q * dx < dx -> brow dx dy k = q.
Proof. intros D H. symmetry. apply (Z.div_unique_pos _ _ _ (dx - 1 - (dx / 2 - k * dy + q * dx))); nia. Qed.
Lemma brow_follows dx dy : 0 <= dy <= dx -> follows dx dy (brow dx dy).
Proof.
  intros H. destruct (Z.eq_dec dx 0) as [->|N].
  - assert (dy = 0) as -> by lia. unfold follows, brow. rewrite Zdiv_0_r. split; [reflexivity|]. split; [reflexivity|]. intros. rewrite Zdiv_0_r. lia.
  - assert (D : 0 < dx) by lia. pose proof (Z.div_mod dx 2 ltac:(lia)). pose proof (Z.mod_pos_bound dx 2 ltac:(lia)).
    split; [apply brow_unique; lia|]. split; [apply brow_unique; nia|]. intros k K. pose proof (brow_err dx dy k D) as B. set (q := brow dx dy k) in *. clearbody q. split; [|lia].
    split; [nia|]. assert (q * dx < dy * dx + dx) by nia. nia.
Qed.
Lemma brow_step dx dy k : 0 < dx -> 0 <= dy <= dx -> let e := dx / 2 - k * dy + brow dx dy k * dx in
  (e - dy < 0 -> brow dx dy (k + 1) = brow dx dy k + 1) /\ (0 <= e - dy -> brow dx dy (k + 1) = brow dx dy k).
Proof. intros D H e. pose proof (brow_err dx dy k D) as B. fold e in B. subst e. split; intros N; apply brow_unique; auto; nia. Qed.

(** the exit of the loop *)
Lemma line_exit fuel b steep x0 y0 x1 err dx dy ys : x1 < x0 -> line_loop fuel b steep x0 y0 x1 err dx dy ys = Ok b.
Proof. intros H. destruct fuel; cbn [line_loop]; replace (x0 <=? x1) with false by lia; reflexivity. Qed.
Lemma line_adds (steep : bool) X Y dx dy s : 0 <= dx -> 0 <= dy <= dx -> (s = 1 \/ s = -1) -> int16 X -> X + dx <= 32766 -> int16 Y -> int16 (Y + s * dy) -> dx <= 32767 ->
  forall n k b fuel, frame_ok b -> 0 <= k -> k + Z.of_nat n = dx -> (n < fuel)%nat ->
  exists b', line_loop fuel b steep (X + k) (Y + s * brow dx dy k) (X + dx) (dx / 2 - k * dy + brow dx dy k * dx) dx dy s = Ok b' /\
    adds b b' (fun i j => exists t, k <= t <= dx /\ if steep then j = X + t /\ i = Y + s * brow dx dy t else i = X + t /\ j = Y + s * brow dx dy t).
Proof.
  intros D0 D Hs IX X1 IY IY1 DX. unfold int16 in *. induction n as [|n IH]; intros k b fuel O K N Fu; (destruct fuel as [|fuel]; [lia|]); cbn [line_loop];
    replace (X + k <=? X + dx) with true by lia.
  - assert (P : exists b', (if steep then draw_pixel b (Y + s * brow dx dy k) (X + k) else draw_pixel b (X + k) (Y + s * brow dx dy k)) = Ok b' /\
      adds b b' (fun i j => if steep then j = X + k /\ i = Y + s * brow dx dy k else i = X + k /\ j = Y + s * brow dx dy k)).
    { destruct steep; [destruct (pixel_adds b (Y + s * brow dx dy k) (X + k) O) as (b' & E & A)|destruct (pixel_adds b (X + k) (Y + s * brow dx dy k) O) as (b' & E & A)]; exists b'; (split; [exact E|]); [|exact A].
      eapply adds_ext; [|exact A]. cbv beta. tauto. }
    destruct P as (b1 & -> & A1). cbn [bind]. destruct (if _ <? 0 then _ else _) as [y' e']. rewrite line_exit by (rewrite i16_id; lia). exists b1. split; [reflexivity|].
    eapply adds_ext; [|exact A1]. cbv beta. intros i j _. assert (k = dx) as -> by lia. split; [intros H; exists dx; split; [lia|exact H]|intros (t & T & H)]. assert (t = dx) as <- by lia. exact H.
  - assert (P : exists b', (if steep then draw_pixel b (Y + s * brow dx dy k) (X + k) else draw_pixel b (X + k) (Y + s * brow dx dy k)) = Ok b' /\
      adds b b' (fun i j => if steep then j = X + k /\ i = Y + s * brow dx dy k else i = X + k /\ j = Y + s * brow dx dy k)).
    { destruct steep; [destruct (pixel_adds b (Y + s * brow dx dy k) (X + k) O) as (b' & E & A)|destruct (pixel_adds b (X + k) (Y + s * brow dx dy k) O) as (b' & E & A)]; exists b'; (split; [exact E|]); [|exact A].
      eapply adds_ext; [|exact A]. cbv beta. tauto. }
    destruct P as (b1 & -> & A1). cbn [bind]. assert (Dp : 0 < dx) by lia.
    pose proof (brow_err dx dy k Dp) as B. destruct (brow_step dx dy k Dp D) as [S1 S2]. set (e := dx / 2 - k * dy + brow dx dy k * dx) in *.
    destruct (brow_follows dx dy D) as (_ & _ & Rg). destruct (Rg (k + 1) ltac:(lia)) as [Rk _]. destruct (Rg k ltac:(lia)) as [Rk0 _].
    rewrite (i16_id (e - dy)) by lia. rewrite (i16_id (X + k + 1)) by lia. destruct (IH (k + 1) b1 fuel (proj1 A1) ltac:(lia) ltac:(lia) ltac:(lia)) as (b2 & E2 & A2).
    assert (Q : (if e - dy <? 0 then (i16 (Y + s * brow dx dy k + s), i16 (e - dy + dx)) else (Y + s * brow dx dy k, e - dy)) =
      (Y + s * brow dx dy (k + 1), dx / 2 - (k + 1) * dy + brow dx dy (k + 1) * dx)).
    { destruct (Z.ltb_spec (e - dy) 0) as [L|L].
      - pose proof (S1 L) as S. rewrite S in *. f_equal; [rewrite i16_id by nia; ring|rewrite i16_id by lia; unfold e; ring].
      - rewrite (S2 ltac:(lia)). f_equal. unfold e. ring. }
    rewrite Q. rewrite <- (Z.add_assoc X k 1). rewrite E2. exists b2. split; [reflexivity|]. eapply adds_ext; [|exact (adds_both _ _ _ _ _ A1 A2)]. cbv beta. intros i j _. split.
    + intros [H|(t & T & H)]; [exists k; split; [lia|exact H]|exists t; split; [lia|exact H]].
    + intros (t & T & H). destruct (Z.eq_dec t k) as [->|Nt]; [left; exact H|right; exists t; split; [lia|exact H]].
Qed.
(** a line from left to right (from top to bottom if steep) *)
Lemma line_run (steep : bool) b X0 Y0 X1 Y1 fuel : frame_ok b -> int16 X0 -> int16 Y0 -> int16 X1 -> int16 Y1 -> X0 <= X1 <= 32766 -> X1 - X0 <= 32767 -> Z.abs (Y1 - Y0) <= X1 - X0 -> X1 - X0 < Z.of_nat fuel ->
  exists b', line_loop fuel b steep X0 Y0 X1 (Z.quot (i16 (X1 - X0)) 2) (i16 (X1 - X0)) (i16 (Z.abs (Y1 - Y0))) (if Y0 <? Y1 then 1 else -1) = Ok b' /\
    adds b b' (fun i j => exists t, 0 <= t <= X1 - X0 /\
      if steep then j = X0 + t /\ i = toward Y0 Y1 (brow (X1 - X0) (Z.abs (Y1 - Y0)) t) else i = X0 + t /\ j = toward Y0 Y1 (brow (X1 - X0) (Z.abs (Y1 - Y0)) t)).
Proof.
  intros O I1 I2 I3 I4 L D A Fu. unfold int16 in *. rewrite !i16_id by lia. rewrite Z.quot_div_nonneg by lia. set (s := if Y0 <? Y1 then 1 else -1).
  assert (Hs : s = 1 \/ s = -1) by (unfold s; destruct (Y0 <? Y1); auto).
  assert (Ty : forall r, toward Y0 Y1 r = Y0 + s * r) by (intros r; unfold toward, s; destruct (Y0 <? Y1); lia).
  destruct (brow_follows (X1 - X0) (Z.abs (Y1 - Y0)) ltac:(lia)) as (R0 & R1 & _).
  destruct (line_adds steep X0 Y0 (X1 - X0) (Z.abs (Y1 - Y0)) s ltac:(lia) ltac:(lia) Hs I1 ltac:(lia) I2 ltac:(unfold int16, s; destruct (Z.ltb_spec Y0 Y1); lia) D
    (Z.to_nat (X1 - X0)) 0 b fuel O ltac:(lia) ltac:(lia) ltac:(lia)) as (b' & E & Ad).
  rewrite R0 in E. replace (X0 + 0) with X0 in E by lia. replace (Y0 + s * 0) with Y0 in E by lia. replace (X0 + (X1 - X0)) with X1 in E by lia. replace ((X1 - X0) / 2 - 0 * Z.abs (Y1 - Y0) + 0 * (X1 - X0)) with ((X1 - X0) / 2) in E by lia.
  exists b'. split; [exact E|]. eapply adds_ext; [|exact Ad]. cbv beta. intros i j _. split; intros (t & T & H); exists t; (split; [exact T|]); rewrite Ty in *; exact H.
Qed.
Lemma follows_back M m r : follows M m r -> 0 <= M -> follows M m (fun k => m - r (M - k)).
Proof.
  intros (R0 & R1 & R) HM. unfold follows. replace (M - 0) with M by lia. replace (M - M) with 0 by lia. split; [lia|]. split; [lia|].
  intros k K. destruct (R (M - k) ltac:(lia)) as [B1 B2]. split; [lia|]. replace (M * (m - r (M - k)) - k * m) with (- (M * r (M - k) - (M - k) * m)) by ring. rewrite Z.abs_opp. exact B2.
Qed.
Lemma toward_back a b k : 0 <= k <= Z.abs (b - a) -> toward b a k = toward a b (Z.abs (b - a) - k).
Proof. intros H. unfold toward. destruct (Z.ltb_spec a b), (Z.ltb_spec b a); lia. Qed.

Lemma draw_line_adds fuel b x0 y0 x1 y1 : frame_ok b -> int16 x0 -> int16 y0 -> int16 x1 -> int16 y1 ->
  Z.abs (x1 - x0) <= 32767 -> Z.abs (y1 - y0) <= 32767 ->
  (if Z.abs (y1 - y0) <=? Z.abs (x1 - x0) then Z.max x0 x1 else Z.max y0 y1) < 32767 -> Z.max (Z.abs (x1 - x0)) (Z.abs (y1 - y0)) < Z.of_nat fuel ->
  exists b' r, draw_line fuel b x0 y0 x1 y1 = Ok b' /\
    follows (Z.max (Z.abs (x1 - x0)) (Z.abs (y1 - y0))) (Z.min (Z.abs (x1 - x0)) (Z.abs (y1 - y0))) r /\ adds b b' (line_pixels x0 y0 x1 y1 r).
Proof.
  intros O I1 I2 I3 I4 DX DY M Fu. unfold int16 in *. unfold draw_line, line_pixels.
  destruct (Z.ltb_spec (Z.abs (x1 - x0)) (Z.abs (y1 - y0))) as [St|Fl].
  - replace (Z.abs (y1 - y0) <=? Z.abs (x1 - x0)) with false in * by lia. rewrite Z.max_r, Z.min_l by lia. destruct (Z.ltb_spec y1 y0) as [B|B].
    + destruct (line_run true b y1 x1 y0 x0 fuel O I4 I3 I2 I1 ltac:(lia) ltac:(lia) ltac:(lia) ltac:(lia)) as (b' & E & A). replace (Z.abs (x0 - x1)) with (Z.abs (x1 - x0)) in * by lia. exists b'. eexists. split; [exact E|]. split.
      * replace (y0 - y1) with (Z.abs (y1 - y0)) in * by lia. apply follows_back; [apply (brow_follows (Z.abs (y1 - y0)) (Z.abs (x1 - x0))); lia|lia].
      * eapply adds_ext; [|exact A]. cbv beta. replace (y0 - y1) with (Z.abs (y1 - y0)) by lia. destruct (brow_follows (Z.abs (y1 - y0)) (Z.abs (x1 - x0)) ltac:(lia)) as (_ & _ & R).
        intros i j _. split.
        -- intros (t & T & H1 & H2). exists (Z.abs (y1 - y0) - t). split; [lia|]. split; [unfold toward; destruct (Z.ltb_spec y0 y1); lia|].
           replace (Z.abs (y1 - y0) - (Z.abs (y1 - y0) - t)) with t by lia. rewrite H2. rewrite toward_back; [reflexivity|]. apply R; lia.
        -- intros (t & T & H1 & H2). exists (Z.abs (y1 - y0) - t). split; [lia|]. split; [rewrite H1; unfold toward; destruct (Z.ltb_spec y0 y1); lia|].
           rewrite H2. rewrite (toward_back x0 x1); [reflexivity|]. apply R; lia.
    + destruct (line_run true b y0 x0 y1 x1 fuel O I2 I1 I4 I3 ltac:(lia) ltac:(lia) ltac:(lia) ltac:(lia)) as (b' & E & A). exists b'. eexists. split; [exact E|].
      replace (Z.abs (y1 - y0)) with (y1 - y0) in * by lia. split.
      * apply (brow_follows (y1 - y0) (Z.abs (x1 - x0))); lia.
      * eapply adds_ext; [|exact A]. cbv beta. intros i j _. split; intros (t & T & H1 & H2); exists t; (split; [lia|]); (split; [|exact H2]); rewrite H1; unfold toward; destruct (Z.ltb_spec y0 y1); lia.
  - replace (Z.abs (y1 - y0) <=? Z.abs (x1 - x0)) with true in * by lia. rewrite Z.max_l, Z.min_r by lia. destruct (Z.ltb_spec x1 x0) as [B|B].
    + destruct (line_run false b x1 y1 x0 y0 fuel O I3 I4 I1 I2 ltac:(lia) ltac:(lia) ltac:(lia) ltac:(lia)) as (b' & E & A). replace (Z.abs (y0 - y1)) with (Z.abs (y1 - y0)) in * by lia. exists b'. eexists. split; [exact E|]. split.
      * replace (x0 - x1) with (Z.abs (x1 - x0)) in * by lia. apply follows_back; [apply (brow_follows (Z.abs (x1 - x0)) (Z.abs (y1 - y0))); lia|lia].
      * eapply adds_ext; [|exact A]. cbv beta. replace (x0 - x1) with (Z.abs (x1 - x0)) by lia. destruct (brow_follows (Z.abs (x1 - x0)) (Z.abs (y1 - y0)) ltac:(lia)) as (_ & _ & R).
        intros i j _. split.
        -- intros (t & T & H1 & H2). exists (Z.abs (x1 - x0) - t). split; [lia|]. split; [unfold toward; destruct (Z.ltb_spec x0 x1); lia|].
           replace (Z.abs (x1 - x0) - (Z.abs (x1 - x0) - t)) with t by lia. rewrite H2. rewrite toward_back; [reflexivity|]. apply R; lia.
        -- intros (t & T & H1 & H2). exists (Z.abs (x1 - x0) - t). split; [lia|]. split; [rewrite H1; unfold toward; destruct (Z.ltb_spec x0 x1); lia|].
           rewrite H2. rewrite (toward_back y0 y1); [reflexivity|]. apply R; lia.
    + destruct (line_run false b x0 y0 x1 y1 fuel O I1 I2 I3 I4 ltac:(lia) ltac:(lia) ltac:(lia) ltac:(lia)) as (b' & E & A). exists b'. eexists. split; [exact E|].
      replace (Z.abs (x1 - x0)) with (x1 - x0) in * by lia. split.
      * apply (brow_follows (x1 - x0) (Z.abs (y1 - y0))); lia.
      * eapply adds_ext; [|exact A]. cbv beta. intros i j _. split; intros (t & T & H1 & H2); exists t; (split; [lia|]); (split; [|exact H2]); rewrite H1; unfold toward; destruct (Z.ltb_spec x0 x1); lia.
Qed.
