(** * C71, C72: from drawing operations to pixels *)
From Verif Require Import Base DisplayModel PropDisplay GfxFont GfxModel GfxProofs.
Open Scope Z_scope.

(** ** Specification (with [frame_ok], [lit], [on_screen], [adds], [int16], [line_pixels], [follows] of GfxProofs) *)
(** the picture of character [c]: column [u], row [v].  In the classic font the codes from 176 on are shifted by one. *)
Definition glyph (c u v : Z) : bool := Z.testbit (nth (Z.to_nat ((if 176 <=? c then (c + 1) mod 256 else c) * 5 + u)) font 0) v.
(** text in one line, six columns for a character, the upper left corner of the first at (x, y) *)
Definition text_pixels (x y : Z) (t : list Z) (i j : Z) : Prop :=
  exists k u v, 0 <= k < zlen t /\ 0 <= u < 5 /\ 0 <= v < 8 /\ i = x + 6 * k + u /\ j = y + v /\ glyph (nth (Z.to_nat k) t 0) u v = true.
Definition printable (c : Z) : Prop := 0 <= c < 256 /\ c <> 10 /\ c <> 13.
(** the arguments of a drawing operation, as the types say *)
Definition op_typed (d : draw) : Prop :=
  match d with
  | DrawText _ _ t => Forall (fun c => 0 <= c < 256) t
  | DrawLine x0 y0 x1 y1 => int16 x0 /\ int16 y0 /\ int16 x1 /\ int16 y1
  | FillRect x y w h | DrawRect x y w h => int16 x /\ int16 y /\ int16 w /\ int16 h
  end.
(** the largest value that the loop counter of an operation takes *)
Definition last_coordinate (d : draw) : Z :=
  match d with
  | DrawLine x0 y0 x1 y1 => if Z.abs (y1 - y0) <=? Z.abs (x1 - x0) then Z.max x0 x1 else Z.max y0 y1
  | FillRect x _ w _ => x + w - 1
  | _ => 0
  end.
Definition picture := frame_ok.
Definition never_outside (r : res frame) : Prop := match r with Ok b => frame_ok b | Ub f => f = Diverge end.

(** ** Proofs *)
Lemma bits_adds x n : forall L t y0 y b, frame_ok b -> 0 <= L -> 0 <= t -> y = y0 + t -> int16 y0 -> y + Z.of_nat n <= 32767 -> 
  exists b', char_bits n b x y (Z.shiftr L t) = Ok b' /\ adds b b' (fun i j => exists v, t <= v < t + Z.of_nat n /\ i = x /\ j = y0 + v /\ Z.testbit L v = true).
Proof.
  unfold int16. induction n as [|n IH]; intros L t y0 y b O HL T Y I0 I; cbn [char_bits].
  - exists b. split; [reflexivity|]. apply adds_none; [exact O|]. intros i j _ (v & V & _). lia.
  - rewrite i16_id by lia. rewrite Z.shiftr_shiftr by lia. rewrite <- Z.bit0_odd, Z.shiftr_spec by lia. rewrite Z.add_0_l.
    assert (P : exists b1, (if Z.testbit L t then draw_pixel b x y else Ok b) = Ok b1 /\ adds b b1 (fun i j => i = x /\ j = y0 + t /\ Z.testbit L t = true)).
    { destruct (Z.testbit L t).
      - destruct (pixel_adds b x y O) as (b1 & E & A). exists b1. split; [exact E|]. eapply adds_ext; [|exact A]. cbv beta. intros i j _. rewrite Y. tauto.
      - exists b. split; [reflexivity|]. apply adds_none; [exact O|]. intros i j _ (_ & _ & H). discriminate. }
    destruct P as (b1 & -> & A1). cbn [bind]. destruct (IH L (t + 1) y0 (y + 1) b1 (proj1 A1) HL ltac:(lia) ltac:(lia) I0 ltac:(lia)) as (b2 & E2 & A2). rewrite E2.
    exists b2. split; [reflexivity|]. eapply adds_ext; [|exact (adds_both _ _ _ _ _ A1 A2)]. cbv beta. intros i j _. split.
    + intros [(H1 & H2 & H3)|(v & V & H)]; [exists t; split; [lia|tauto]|exists v; split; [lia|exact H]].
    + intros (v & V & H1 & H2 & H3). destruct (Z.eq_dec v t) as [->|N]; [left; auto|right; exists v; split; [lia|auto]].
Qed.
Lemma font_byte n : 0 <= nth n font 0 < 256.
Proof.
  apply Forall_nth_byte. assert (C : forallb (fun v => (0 <=? v) && (v <? 256)) font = true) by (vm_compute; reflexivity). apply Forall_forall. intros v V.
  rewrite forallb_forall in C. specialize (C v V). lia.
Qed.
Lemma cols_adds x y c n : 0 <= c < 256 -> int16 x -> x <= 30000 -> int16 y -> y <= 30000 -> forall i0 b, frame_ok b -> 0 <= i0 -> i0 + Z.of_nat n <= 6 ->
  exists b', char_cols n b x y c i0 = Ok b' /\ adds b b' (fun i j => exists u v, i0 <= u < i0 + Z.of_nat n /\ u < 5 /\ 0 <= v < 8 /\ i = x + u /\ j = y + v /\ Z.testbit (nth (Z.to_nat (c * 5 + u)) font 0) v = true).
Proof.
  intros C IX X IY Y. pose proof IX as IX'. pose proof IY as IY'. unfold int16 in IX', IY'. induction n as [|n IH]; intros i0 b O I N; cbn [char_cols].
  - exists b. split; [reflexivity|]. apply adds_none; [exact O|]. intros i j _ (u & v & U & _). lia.
  - assert (G : exists L, (if i0 <? 5 then zget font (c * 5 + i0) else Ok 0) = Ok L /\ 0 <= L /\ forall v, Z.testbit L v = true <-> i0 < 5 /\ Z.testbit (nth (Z.to_nat (c * 5 + i0)) font 0) v = true).
    { destruct (Z.ltb_spec i0 5) as [L|L].
      - rewrite (zget_ok font _ 0) by (change (zlen font) with 1280; lia). eexists. split; [reflexivity|]. split; [apply font_byte|]. tauto.
      - exists 0. split; [reflexivity|]. split; [lia|]. intros v. rewrite Z.testbit_0_l. split; [discriminate|lia]. }
    destruct G as (L & -> & L0 & LS). cbn [bind]. rewrite i16_id by lia.
    destruct (bits_adds (x + i0) 8 L 0 y y b O L0 ltac:(lia) ltac:(lia) IY ltac:(lia)) as (b1 & E1 & A1). rewrite Z.shiftr_0_r in E1. rewrite E1. cbn [bind].
    destruct (IH (i0 + 1) b1 (proj1 A1) ltac:(lia) ltac:(lia)) as (b2 & E2 & A2). rewrite E2. exists b2. split; [reflexivity|].
    eapply adds_ext; [|exact (adds_both _ _ _ _ _ A1 A2)]. cbv beta. intros i j _. split.
    + intros [(v & V & -> & -> & T)|(u & v & U & H)]; [apply LS in T as [T1 T2]; exists i0, v; repeat split; auto; lia|exists u, v; split; [lia|exact H]].
    + intros (u & v & U & U5 & V & H1 & H2 & T). destruct (Z.eq_dec u i0) as [->|D]; [left; exists v; repeat split; auto; try lia; apply LS; auto|right; exists u, v; repeat split; auto; lia].
Qed.
(** drawChar *)
Lemma char_adds b x y c : frame_ok b -> int16 x -> int16 y -> 0 <= c < 256 ->
  exists b', draw_char b x y c = Ok b' /\ adds b b' (fun i j => exists u v, 0 <= u < 5 /\ 0 <= v < 8 /\ i = x + u /\ j = y + v /\ glyph c u v = true).
Proof.
  intros O IX IY C. unfold draw_char. destruct ((128 <=? x) || (32 <=? y) || (x + 6 * 1 - 1 <? 0) || (y + 8 * 1 - 1 <? 0)) eqn:Cl.
  - exists b. split; [reflexivity|]. apply adds_none; [exact O|]. intros i j [I J] (u & v & U & V & -> & -> & _). lia.
  - set (c' := if 176 <=? c then (c + 1) mod 256 else c). assert (C' : 0 <= c' < 256) by (unfold c'; destruct (176 <=? c); [apply Z.mod_pos_bound|]; lia).
    destruct (cols_adds x y c' 6 C' IX ltac:(lia) IY ltac:(lia) 0 b O ltac:(lia) ltac:(lia)) as (b' & E & A). cbv zeta. rewrite E. exists b'. split; [reflexivity|].
    eapply adds_ext; [|exact A]. cbv beta. intros i j _. unfold glyph. fold c'. split; intros (u & v & H); exists u, v; intuition lia.
Qed.
(** text that fits in one line *)
Lemma print_line t : forall x y b, frame_ok b -> int16 y -> Forall printable t -> 0 <= x -> x + 6 * zlen t <= 127 ->
  exists b', gfx_print (b, x, y) t = Ok (b', x + 6 * zlen t, y) /\ adds b b' (text_pixels x y t).
Proof.
  induction t as [|c t IH]; intros x y b O IY P X W; cbn [gfx_print].
  - rewrite (@zlen_nil Z). exists b. split; [f_equal; f_equal; f_equal; lia|]. apply adds_none; [exact O|]. intros i j _ (k & _ & _ & K & _). rewrite (@zlen_nil Z) in K. lia.
  - rewrite zlen_cons in *. pose proof (zlen_nonneg t) as Zt. inversion P as [|? ? (C & C1 & C2) Pt]; subst.
    unfold gfx_write. replace (c =? 10) with false by lia. replace (c =? 13) with false by lia. replace (128 <=? x + 6) with false by lia.
    destruct (char_adds b x y c O ltac:(unfold int16; lia) IY C) as (b1 & E1 & A1). rewrite E1. cbn [bind]. rewrite i16_id by lia.
    destruct (IH (x + 6) y b1 (proj1 A1) IY Pt ltac:(lia) ltac:(lia)) as (b2 & E2 & A2). rewrite E2. exists b2. split; [f_equal; f_equal; f_equal; lia|].
    eapply adds_ext; [|exact (adds_both _ _ _ _ _ A1 A2)]. cbv beta. unfold text_pixels. intros i j _. split.
    + intros [(u & v & U & V & H1 & H2 & G)|(k & u & v & K & U & V & H1 & H2 & G)].
      * exists 0, u, v. rewrite zlen_cons. repeat split; auto; try lia.
      * exists (k + 1), u, v. rewrite zlen_cons. replace (Z.to_nat (k + 1)) with (S (Z.to_nat k)) by lia. repeat split; auto; lia.
    + intros (k & u & v & K & U & V & H1 & H2 & G). rewrite zlen_cons in K. destruct (Z.eq_dec k 0) as [->|N].
      * left. exists u, v. repeat split; auto; lia.
      * right. exists (k - 1), u, v. replace (Z.to_nat k) with (S (Z.to_nat (k - 1))) in G by lia. repeat split; auto; lia.
Qed.
Lemma print_app s t1 t2 : gfx_print s (t1 ++ t2) = bind (gfx_print s t1) (fun s1 => gfx_print s1 t2).
Proof. revert s. induction t1 as [|c t1 IH]; intros s; cbn [gfx_print app bind]; [reflexivity|]. destruct (gfx_write s c); cbn [bind]; auto. Qed.
Lemma text_adds b x y t : frame_ok b -> 0 <= x -> int16 y -> Forall printable t -> x + 6 * zlen t <= 127 ->
  exists b', draw_text b x y t = Ok b' /\ adds b b' (text_pixels x y t).
Proof.
  intros O X Y P W. pose proof (zlen_nonneg t) as Zt. unfold draw_text. rewrite !i16_id by (unfold int16 in *; lia). rewrite print_app.
  destruct (print_line t x y b O Y P X W) as (b' & E & A). rewrite E. exists b'. split; [reflexivity|exact A].
Qed.

(** nothing is ever written outside *)
Lemma i16_range z : int16 (i16 z).
Proof. unfold int16, i16. pose proof (Z.mod_pos_bound (z + 32768) 65536 ltac:(lia)). lia. Qed.
Lemma vline_neg b x y h : y < 0 -> draw_vline b x y h = draw_vline b x 0 (i16 (h + y)).
Proof. intros H. unfold draw_vline. replace (y <? 0) with true by lia. reflexivity. Qed.
Lemma hline_neg b x y w : x < 0 -> draw_hline b x y w = draw_hline b 0 y (i16 (w + x)).
Proof. intros H. unfold draw_hline. replace (x <? 0) with true by lia. reflexivity. Qed.
Lemma vline_ok b x y h : frame_ok b -> int16 y -> int16 h -> exists b', draw_vline b x y h = Ok b' /\ frame_ok b'.
Proof.
  intros O Y H. destruct (Z_lt_dec y 0) as [N|N].
  - rewrite vline_neg by exact N. pose proof (i16_range (h + y)) as I. destruct (vline_adds b x 0 (i16 (h + y)) O ltac:(unfold int16; lia) I ltac:(unfold int16 in I; lia)) as (b' & E & A). exists b'. split; [exact E|apply A].
  - destruct (vline_adds b x y h O Y H ltac:(unfold int16 in *; lia)) as (b' & E & A). exists b'. split; [exact E|apply A].
Qed.
Lemma hline_ok b x y w : frame_ok b -> int16 x -> int16 w -> exists b', draw_hline b x y w = Ok b' /\ frame_ok b'.
Proof.
  intros O X H. destruct (Z_lt_dec x 0) as [N|N].
  - rewrite hline_neg by exact N. pose proof (i16_range (w + x)) as I. destruct (hline_adds b 0 y (i16 (w + x)) O ltac:(unfold int16; lia) I ltac:(unfold int16 in I; lia)) as (b' & E & A). exists b'. split; [exact E|apply A].
  - destruct (hline_adds b x y w O X H ltac:(unfold int16 in *; lia)) as (b' & E & A). exists b'. split; [exact E|apply A].
Qed.
Lemma fill_never y h e : int16 y -> int16 h -> forall fuel b i, frame_ok b -> never_outside (fill_loop fuel b i e y h).
Proof.
  intros Y H. induction fuel as [|n IH]; intros b i O; cbn [fill_loop]; destruct (i <? e); cbn [never_outside]; auto.
  destruct (vline_ok b i y h O Y H) as (b1 & -> & O1). cbn [bind]. apply IH. exact O1.
Qed.
Lemma fill_forever y h e : int16 y -> int16 h -> 32767 < e -> forall fuel b i, frame_ok b -> int16 i -> fill_loop fuel b i e y h = Ub Diverge.
Proof.
  intros Y H E. induction fuel as [|n IH]; intros b i O I; cbn [fill_loop]; replace (i <? e) with true by (unfold int16 in I; lia); [reflexivity|].
  destruct (vline_ok b i y h O Y H) as (b1 & -> & O1). cbn [bind]. apply IH; [exact O1|apply i16_range].
Qed.
(** one pixel of a line *)
Lemma step_ok b (steep : bool) x y : frame_ok b -> exists b', (if steep then draw_pixel b y x else draw_pixel b x y) = Ok b' /\ frame_ok b'.
Proof. intros O. destruct steep; [destruct (pixel_adds b y x O) as (b' & E & A)|destruct (pixel_adds b x y O) as (b' & E & A)]; exists b'; (split; [exact E|apply A]). Qed.
Lemma line_never steep x1 dx dy s : forall fuel b x0 y0 err, frame_ok b -> never_outside (line_loop fuel b steep x0 y0 x1 err dx dy s).
Proof.
  induction fuel as [|n IH]; intros b x0 y0 err O; cbn [line_loop]; destruct (x0 <=? x1); cbn [never_outside]; auto.
  destruct (step_ok b steep x0 y0 O) as (b1 & -> & O1). cbn [bind]. destruct (if _ <? 0 then _ else _) as [y' e']. apply IH. exact O1.
Qed.
Lemma line_forever steep dx dy s : forall fuel b x0 y0 err, frame_ok b -> int16 x0 -> line_loop fuel b steep x0 y0 32767 err dx dy s = Ub Diverge.
Proof.
  induction fuel as [|n IH]; intros b x0 y0 err O I; cbn [line_loop]; replace (x0 <=? 32767) with true by (unfold int16 in I; lia); [reflexivity|].
  destruct (step_ok b steep x0 y0 O) as (b1 & -> & O1). cbn [bind]. destruct (if _ <? 0 then _ else _) as [y' e']. apply IH; [exact O1|apply i16_range].
Qed.
Lemma line_ends steep x1 dx dy s : x1 < 32767 -> forall n fuel b x0 y0 err, frame_ok b -> int16 x0 -> x1 < x0 + Z.of_nat n -> (n <= fuel)%nat ->
  exists b', line_loop fuel b steep x0 y0 x1 err dx dy s = Ok b' /\ frame_ok b'.
Proof.
  intros X1. unfold int16. induction n as [|n IH]; intros fuel b x0 y0 err O I D Fu.
  - rewrite line_exit by lia. eauto.
  - destruct fuel as [|fuel]; [lia|]. cbn [line_loop]. destruct (Z.leb_spec x0 x1); [|eauto]. destruct (step_ok b steep x0 y0 O) as (b1 & -> & O1). cbn [bind].
    destruct (if _ <? 0 then _ else _) as [y' e']. rewrite i16_id by lia. apply IH; auto; lia.
Qed.

Lemma write_ok b cx cy c : frame_ok b -> int16 cx -> int16 cy -> 0 <= c < 256 -> exists b' cx' cy', gfx_write (b, cx, cy) c = Ok (b', cx', cy') /\ frame_ok b' /\ int16 cx' /\ int16 cy'.
Proof.
  intros O X Y C. unfold gfx_write. destruct (c =? 10); [do 3 eexists; split; [reflexivity|]; split; [exact O|]; split; [unfold int16; lia|apply i16_range]|].
  destruct (c =? 13); [do 3 eexists; split; [reflexivity|]; auto|].
  assert (W : exists x' y', (if 128 <=? cx + 6 then (0, i16 (cy + 8)) else (cx, cy)) = (x', y') /\ int16 x' /\ int16 y').
  { destruct (128 <=? cx + 6); do 2 eexists; (split; [reflexivity|]); split; auto; [unfold int16; lia|apply i16_range]. }
  destruct W as (x' & y' & -> & X' & Y'). destruct (char_adds b x' y' c O X' Y' C) as (b1 & -> & A1). cbn [bind]. do 3 eexists. split; [reflexivity|]. split; [apply A1|]. split; [apply i16_range|exact Y'].
Qed.
Lemma print_ok t : forall b cx cy, Forall (fun c => 0 <= c < 256) t -> frame_ok b -> int16 cx -> int16 cy -> exists b' cx' cy', gfx_print (b, cx, cy) t = Ok (b', cx', cy') /\ frame_ok b' /\ int16 cx' /\ int16 cy'.
Proof.
  induction t as [|c t IH]; intros b cx cy T O X Y; cbn [gfx_print]; [eauto 10|]. inversion T as [|? ? C T']; subst.
  destruct (write_ok b cx cy c O X Y C) as (b1 & x1 & y1 & -> & O1 & X1 & Y1). cbn [bind]. apply IH; auto.
Qed.
Lemma op_ends fuel b d : frame_ok b -> op_typed d -> last_coordinate d < 32767 -> 65536 <= Z.of_nat fuel -> exists b', paint_op fuel b d = Ok b' /\ frame_ok b'.
Proof.
  intros O T L Fu. destruct d as [x y t|x0 y0 x1 y1|x y w h|x y w h]; cbn [paint_op op_typed last_coordinate] in *.
  - unfold draw_text. destruct (print_ok (t ++ [13; 10]) b (i16 x) (i16 y)) as (b' & cx & cy & -> & O' & _); [apply Forall_app; split; [exact T|repeat constructor; lia]|exact O|apply i16_range|apply i16_range|]. cbn [bind]. eauto.
  - destruct T as (I1 & I2 & I3 & I4). unfold draw_line. destruct (Z.ltb_spec (Z.abs (x1 - x0)) (Z.abs (y1 - y0))) as [S|S].
    + replace (Z.abs (y1 - y0) <=? Z.abs (x1 - x0)) with false in L by lia. destruct (Z.ltb_spec y1 y0); cbv beta iota zeta; apply line_ends with (n := Z.to_nat 65536); auto; unfold int16 in *; lia.
    + replace (Z.abs (y1 - y0) <=? Z.abs (x1 - x0)) with true in L by lia. destruct (Z.ltb_spec x1 x0); cbv beta iota zeta; apply line_ends with (n := Z.to_nat 65536); auto; unfold int16 in *; lia.
  - destruct T as (I1 & I2 & I3 & I4). unfold fill_rect. assert (G : forall n fuel b i, frame_ok b -> int16 i -> x + w <= i + Z.of_nat n -> (n <= fuel)%nat -> exists b', fill_loop fuel b i (x + w) y h = Ok b' /\ frame_ok b').
    { clear - L I2 I4. induction n as [|n IH]; intros fuel b i O I D Fu.
      - exists b. split; [destruct fuel; cbn [fill_loop]; replace (i <? x + w) with false by lia; reflexivity|exact O].
      - destruct fuel as [|fuel]; [lia|]. cbn [fill_loop]. destruct (Z.ltb_spec i (x + w)); [|eauto]. destruct (vline_ok b i y h O I2 I4) as (b1 & -> & O1). cbn [bind].
        rewrite i16_id by (unfold int16 in *; lia). apply IH; auto; unfold int16 in *; lia. }
    apply (G (Z.to_nat 65536)); auto; unfold int16 in *; lia.
  - destruct T as (I1 & I2 & I3 & I4). unfold draw_rect. destruct (hline_ok b x y w O I1 I3) as (b1 & -> & O1). cbn [bind].
    destruct (hline_ok b1 x (i16 (y + h - 1)) w O1 I1 I3) as (b2 & -> & O2). cbn [bind]. destruct (vline_ok b2 x y h O2 I2 I4) as (b3 & -> & O3). cbn [bind]. apply vline_ok; auto.
Qed.
Lemma op_hangs fuel b d : frame_ok b -> op_typed d -> 32767 <= last_coordinate d -> paint_op fuel b d = Ub Diverge.
Proof.
  intros O T L. destruct d as [x y t|x0 y0 x1 y1|x y w h|x y w h]; cbn [paint_op op_typed last_coordinate] in *; try lia.
  - destruct T as (I1 & I2 & I3 & I4). unfold draw_line. destruct (Z.ltb_spec (Z.abs (x1 - x0)) (Z.abs (y1 - y0))) as [S|S].
    + replace (Z.abs (y1 - y0) <=? Z.abs (x1 - x0)) with false in L by lia. destruct (Z.ltb_spec y1 y0); cbv beta iota zeta.
      * assert (y0 = 32767) as -> by (unfold int16 in *; lia). apply line_forever; auto.
      * assert (y1 = 32767) as -> by (unfold int16 in *; lia). apply line_forever; auto.
    + replace (Z.abs (y1 - y0) <=? Z.abs (x1 - x0)) with true in L by lia. destruct (Z.ltb_spec x1 x0); cbv beta iota zeta.
      * assert (x0 = 32767) as -> by (unfold int16 in *; lia). apply line_forever; auto.
      * assert (x1 = 32767) as -> by (unfold int16 in *; lia). apply line_forever; auto.
  - destruct T as (I1 & I2 & I3 & I4). apply fill_forever; auto; unfold int16 in *; lia.
Qed.
Lemma op_never fuel b d : frame_ok b -> op_typed d -> never_outside (paint_op fuel b d).
Proof.
  intros O T. destruct d as [x y t|x0 y0 x1 y1|x y w h|x y w h].
  - cbn [paint_op op_typed] in *. unfold draw_text. destruct (print_ok (t ++ [13; 10]) b (i16 x) (i16 y)) as (b' & cx & cy & -> & O' & _); [apply Forall_app; split; [exact T|repeat constructor; lia]|exact O|apply i16_range|apply i16_range|]. exact O'.
  - cbn [paint_op]. unfold draw_line. destruct (Z.abs (x1 - x0) <? Z.abs (y1 - y0)); cbv beta iota zeta; [destruct (y1 <? y0)|destruct (x1 <? x0)]; apply line_never; exact O.
  - destruct T as (I1 & I2 & I3 & I4). apply fill_never; auto.
  - destruct T as (I1 & I2 & I3 & I4). cbn [paint_op]. unfold draw_rect. destruct (hline_ok b x y w O I1 I3) as (b1 & -> & O1). cbn [bind].
    destruct (hline_ok b1 x (i16 (y + h - 1)) w O1 I1 I3) as (b2 & -> & O2). cbn [bind]. destruct (vline_ok b2 x y h O2 I2 I4) as (b3 & -> & O3). cbn [bind].
    destruct (vline_ok b3 (i16 (x + w - 1)) y h O3 I2 I4) as (b4 & -> & O4). exact O4.
Qed.

(** ** C71 *)
(** (1) Whatever is drawn, in whatever order, with whatever coordinates: nothing outside the frame buffer or the font is touched.
    [fuel]: at any point of the loops of the library. *)
Theorem C71_never_outside : forall fuel ds b, frame_ok b -> Forall op_typed ds -> never_outside (paint fuel b ds).
Proof.
  intros fuel. induction ds as [|d ds IH]; intros b O T; cbn [paint]; [exact O|]. inversion T as [|? ? T1 T2]; subst.
  pose proof (op_never fuel b d O T1) as N. destruct (paint_op fuel b d) as [b1|f]; cbn [bind never_outside] in *; auto.
Qed.
Print Assumptions C71_never_outside.

(** (2) Drawing ends, as long as no line or filled rectangle reaches coordinate 32767 ... *)
Theorem C71_ends_partial : forall fuel ds b, frame_ok b -> Forall op_typed ds -> Forall (fun d => last_coordinate d < 32767) ds -> 65536 <= Z.of_nat fuel ->
  exists b', paint fuel b ds = Ok b' /\ frame_ok b'.
Proof.
  intros fuel. induction ds as [|d ds IH]; intros b O T L Fu; cbn [paint]; [eauto|]. inversion T as [|? ? T1 T2]; subst. inversion L as [|? ? L1 L2]; subst.
  destruct (op_ends fuel b d O T1 L1 Fu) as (b1 & -> & O1). cbn [bind]. apply IH; auto.
Qed.
Print Assumptions C71_ends_partial.
(** ... and every line or rectangle that does hangs the controller: however long one waits, it is not drawn to the end. *)
Theorem C71_hang_refuted : forall b d, frame_ok b -> op_typed d -> 32767 <= last_coordinate d -> forall fuel, paint_op fuel b d = Ub Diverge.
Proof. intros b d O T L fuel. now apply op_hangs. Qed.
Print Assumptions C71_hang_refuted.

(** (3) What is drawn.  The operations whose shape is not cut by the number range: a line of any two points less than 32768 apart,
    a rectangle of non-negative height not reaching coordinate 32767, an outline, a text that fits between its column and column 127. *)
Definition op_fits (d : draw) : Prop :=
  op_typed d /\ last_coordinate d < 32767 /\
  match d with
  | DrawText x y t => 0 <= x /\ int16 y /\ Forall printable t /\ x + 6 * zlen t <= 127
  | DrawLine x0 y0 x1 y1 => Z.abs (x1 - x0) <= 32767 /\ Z.abs (y1 - y0) <= 32767
  | FillRect x y w h => 0 <= h
  | DrawRect x y w h => 1 <= w /\ 1 <= h /\ x + w - 1 <= 32767 /\ y + h - 1 <= 32767
  end.
(** the shape [S] is what operation [d] stands for *)
Definition shape_of (d : draw) (S : Z -> Z -> Prop) : Prop :=
  match d with
  | DrawText x y t => S = text_pixels x y t
  | DrawLine x0 y0 x1 y1 => exists r, S = line_pixels x0 y0 x1 y1 r /\
      follows (Z.max (Z.abs (x1 - x0)) (Z.abs (y1 - y0))) (Z.min (Z.abs (x1 - x0)) (Z.abs (y1 - y0))) r
  | FillRect x y w h => S = fun i j => x <= i < x + w /\ y <= j < y + h
  | DrawRect x y w h => S = fun i j => x <= i < x + w /\ y <= j < y + h /\ (i = x \/ i = x + w - 1 \/ j = y \/ j = y + h - 1)
  end.
Lemma op_shows fuel b d : frame_ok b -> op_fits d -> 65536 <= Z.of_nat fuel -> exists b' S, paint_op fuel b d = Ok b' /\ shape_of d S /\ adds b b' S.
Proof.
  intros O (T & L & Fi) Fu. destruct d as [x y t|x0 y0 x1 y1|x y w h|x y w h]; cbn [op_typed last_coordinate paint_op shape_of] in *.
  - destruct Fi as (X & Y & P & W). destruct (text_adds b x y t O X Y P W) as (b' & E & A). exists b'. eexists. split; [exact E|]. split; [reflexivity|exact A].
  - destruct T as (I1 & I2 & I3 & I4). destruct Fi as (D1 & D2). destruct (draw_line_adds fuel b x0 y0 x1 y1 O I1 I2 I3 I4 D1 D2 L ltac:(lia)) as (b' & r & E & R & A). exists b'. eexists. split; [exact E|]. split; [exists r; split; [reflexivity|exact R]|exact A].
  - destruct T as (I1 & I2 & I3 & I4). unfold fill_rect.
    destruct (fill_adds y h (x + w) I2 I4 ltac:(unfold int16 in *; lia) ltac:(lia) (Z.to_nat (Z.max w 0)) x b fuel O I1 ltac:(lia) ltac:(unfold int16 in *; lia)) as (b' & E & A). exists b'. eexists. split; [exact E|]. split; [reflexivity|exact A].
  - destruct T as (I1 & I2 & I3 & I4). destruct Fi as (W & H & XW & YH). unfold draw_rect. unfold int16 in *. rewrite !i16_id by lia.
    destruct (hline_adds b x y w O ltac:(unfold int16; lia) ltac:(unfold int16; lia) ltac:(lia)) as (b1 & -> & A1). cbn [bind].
    destruct (hline_adds b1 x (y + h - 1) w (proj1 A1) ltac:(unfold int16; lia) ltac:(unfold int16; lia) ltac:(lia)) as (b2 & -> & A2). cbn [bind].
    destruct (vline_adds b2 x y h (proj1 A2) ltac:(unfold int16; lia) ltac:(unfold int16; lia) ltac:(lia)) as (b3 & -> & A3). cbn [bind].
    destruct (vline_adds b3 (x + w - 1) y h (proj1 A3) ltac:(unfold int16; lia) ltac:(unfold int16; lia) ltac:(lia)) as (b4 & -> & A4).
    exists b4. eexists. split; [reflexivity|]. split; [reflexivity|]. eapply adds_ext; [|exact (adds_both _ _ _ _ _ (adds_both _ _ _ _ _ (adds_both _ _ _ _ _ A1 A2) A3) A4)]. cbv beta. intros i j _. lia.
Qed.
Theorem C71_pixels : forall fuel ds b, frame_ok b -> Forall op_fits ds -> 65536 <= Z.of_nat fuel ->
  exists b' Ss, paint fuel b ds = Ok b' /\ Forall2 shape_of ds Ss /\ adds b b' (fun i j => exists S, In S Ss /\ S i j).
Proof.
  intros fuel. induction ds as [|d ds IH]; intros b O Fi Fu; cbn [paint].
  - exists b, []. split; [reflexivity|]. split; [constructor|]. apply adds_none; [exact O|]. intros i j _ (S & [] & _).
  - inversion Fi as [|? ? F1 F2]; subst. destruct (op_shows fuel b d O F1 Fu) as (b1 & S & -> & Sh & A1). cbn [bind].
    destruct (IH b1 (proj1 A1) F2 Fu) as (b2 & Ss & E2 & Sh2 & A2). exists b2, (S :: Ss). split; [exact E2|]. split; [constructor; assumption|].
    eapply adds_ext; [|exact (adds_both _ _ _ _ _ A1 A2)]. cbv beta. intros i j _. cbn [In]. split.
    + intros [H|(S' & I & H)]; [exists S|exists S']; auto.
    + intros (S' & [<-|I] & H); [left; exact H|right; eauto].
Qed.
Print Assumptions C71_pixels.
(** the blank screen, to start from *)
Lemma blank_ok : frame_ok blank /\ forall i j, lit blank i j = false.
Proof.
  split; [split; [reflexivity|apply Forall_forall; intros v V; apply repeat_spec in V; lia]|]. intros i j. unfold lit, blank.
  replace (nth (Z.to_nat (i + j / 8 * 128)) (repeat 0 512) 0) with 0; [apply Z.testbit_0_l|]. symmetry. destruct (nth_in_or_default (Z.to_nat (i + j / 8 * 128)) (repeat 0 512) 0) as [H|H]; [now apply repeat_spec in H|exact H].
Qed.

(** ** Cases *)
(** a line that does not fit: a joint 32757 units to the right of the first one *)
Example C71_hang_case : op_typed (DrawLine 10 20 32767 20) /\ last_coordinate (DrawLine 10 20 32767 20) = 32767.
Proof. split; [unfold op_typed, int16; lia|reflexivity]. Qed.
(** a line across two pages, part of it outside: ten of its pixels are switched on *)
Definition lit_pixels (b : frame) : list (Z * Z) := filter (fun p => lit b (fst p) (snd p)) (flat_map (fun j => map (fun i => (i, j)) (zrange 128)) (zrange 32)).
Example C71_line_case : op_fits (DrawLine 118 5 140 11) /\
  match paint_op 100 blank (DrawLine 118 5 140 11) with Ok b => lit_pixels b | Ub _ => [] end =
  [(118, 5); (119, 5); (120, 6); (121, 6); (122, 6); (123, 6); (124, 7); (125, 7); (126, 7); (127, 7)].
Proof. split; [split; [unfold op_typed, int16; lia|split; [reflexivity|lia]]|vm_compute; reflexivity]. Qed.
(** "V" in the corner, an outline and a bar over the border of two pages *)
Example C71_shapes_case : Forall op_fits [DrawText 0 0 [86]; DrawRect 20 30 3 2; FillRect (-2) 7 4 2] /\
  match paint 100 blank [DrawText 0 0 [86]; DrawRect 20 30 3 2; FillRect (-2) 14 4 3] with Ok b => lit_pixels b | Ub _ => [] end =
  [(0, 0); (4, 0); (0, 1); (4, 1); (0, 2); (4, 2); (0, 3); (4, 3); (0, 4); (4, 4); (1, 5); (3, 5); (2, 6);
   (0, 14); (1, 14); (0, 15); (1, 15); (0, 16); (1, 16); (20, 30); (21, 30); (22, 30); (20, 31); (21, 31); (22, 31)].
Proof.
  split; [|vm_compute; reflexivity].
  constructor; [|constructor; [|constructor; [|constructor]]]; (split; [|split; [reflexivity|]]); cbn [op_typed]; unfold int16; try lia.
  - constructor; [lia|constructor].
  - split; [lia|]. split; [lia|]. split; [constructor; [unfold printable; lia|constructor]|]. vm_compute. discriminate.
Qed.

(** ** C73 The frame is sent to the screen as it is: 32 transmissions, each the data marker 0x40 and the next sixteen bytes. *)
Lemma send_bytes_ok b n : forall i, 0 <= i -> i + Z.of_nat n <= zlen b -> send_bytes n b i = Ok (firstn n (skipn (Z.to_nat i) b)).
Proof.
  induction n as [|n IH]; intros i I L; cbn [send_bytes]; [reflexivity|]. rewrite (zget_ok b i 0) by lia. cbn [bind]. rewrite IH by lia. cbn [bind]. f_equal.
  replace (Z.to_nat (i + 1)) with (S (Z.to_nat i)) by lia. unfold zlen in L. revert L. generalize (Z.to_nat i) as k, (Z2Nat.id i I). intros k E L. rewrite <- E in L. clear E IH. revert k L. induction b as [|v b IHb]; intros k L; cbn [length] in L; [lia|].
  destruct k as [|k]; [reflexivity|]. cbn [nth skipn]. apply IHb. lia.
Qed.
Lemma skipn_skipn {X} (m n : nat) (l : list X) : skipn m (skipn n l) = skipn (m + n) l.
Proof. revert l. induction n as [|n IH]; intros l; [now rewrite Nat.add_0_r|]. rewrite Nat.add_succ_r. destruct l; [destruct m; reflexivity|]. cbn [skipn]. apply IH. Qed.
Theorem C73_sent : forall b, frame_ok b -> exists packets, send_frame 32 b 0 = Ok packets /\ length packets = 32%nat /\
  Forall (fun p => exists data, p = 64 :: data /\ length data = 16%nat) packets /\ flat_map (@tl Z) packets = b.
Proof.
  intros b [L _]. assert (G : forall n i, 0 <= i -> i + 16 * Z.of_nat n = 512 -> exists packets, send_frame n b i = Ok packets /\ length packets = n /\
    Forall (fun p => exists data, p = 64 :: data /\ length data = 16%nat) packets /\ flat_map (@tl Z) packets = skipn (Z.to_nat i) b).
  { induction n as [|n IH]; intros i I S; cbn [send_frame].
    - assert (i = 512) as -> by lia. exists []. split; [reflexivity|]. split; [reflexivity|]. split; [constructor|]. rewrite skipn_all2; [reflexivity|]. unfold zlen in L. lia.
    - replace (i <? 512) with true by lia. rewrite send_bytes_ok by lia. cbn [bind]. destruct (IH (i + 16) ltac:(lia) ltac:(lia)) as (ps & E & N & Fa & Fl). rewrite E. cbn [bind].
      eexists. split; [reflexivity|]. split; [cbn [length]; lia|]. split.
      + constructor; [|exact Fa]. eexists. split; [reflexivity|]. rewrite firstn_length, skipn_length. unfold zlen in L. lia.
      + cbn [flat_map tl]. rewrite Fl. replace (Z.to_nat (i + 16)) with (16 + Z.to_nat i)%nat by lia. rewrite <- (skipn_skipn 16). apply firstn_skipn. }
  destruct (G 32%nat 0 ltac:(lia) ltac:(lia)) as (ps & H). exists ps. exact H.
Qed.
Print Assumptions C73_sent.
