From Verif Require Import Base EepromModel EepromSpec.
Open Scope Z_scope.

(** ** list facts *)
Lemma zget_app_l {A} (a b : list A) i : 0 <= i < zlen a -> zget (a ++ b) i = zget a i.
Proof.
  intros H. destruct a as [|x a]. { unfold zlen in H; cbn in H; lia. }
  rewrite !(zget_ok _ _ x) by (rewrite ?zlen_app; pose proof (zlen_nonneg b); lia).
  rewrite app_nth1; auto. unfold zlen in H; lia.
Qed.

Lemma zget_app_r {A} (a b : list A) i : zlen a <= i -> zget (a ++ b) i = zget b (i - zlen a).
Proof.
  intros H. pose proof (zlen_nonneg a).
  destruct (Z_lt_le_dec i (zlen a + zlen b)) as [L|L].
  - destruct b as [|x b]. { unfold zlen in *; cbn in *; lia. }
    rewrite !(zget_ok _ _ x) by (rewrite ?zlen_app; lia).
    rewrite app_nth2 by (unfold zlen in *; lia). do 2 f_equal. unfold zlen; lia.
  - rewrite !zget_oob; auto; rewrite ?zlen_app; right; lia.
Qed.

Lemma zget_mid {A} (pre : list A) x post i : i = zlen pre -> zget (pre ++ x :: post) i = Ok x.
Proof.
  intros ->. rewrite zget_app_r by lia. rewrite Z.sub_diag.
  rewrite (zget_ok _ _ x); auto. rewrite zlen_cons. pose proof (zlen_nonneg post). lia.
Qed.

Lemma upd_mid {A} (pre : list A) x y post :
  upd (pre ++ x :: post) (length pre) y = pre ++ y :: post.
Proof. induction pre; cbn; auto. f_equal; auto. Qed.

Lemma zset_mid {A} (pre : list A) x y post i : i = zlen pre ->
  zset (pre ++ x :: post) i y = Ok (pre ++ y :: post).
Proof.
  intros ->. rewrite zset_ok.
  - unfold zlen. rewrite Nat2Z.id, upd_mid. reflexivity.
  - rewrite zlen_app, zlen_cons. pose proof (zlen_nonneg pre). pose proof (zlen_nonneg post). lia.
Qed.

Lemma to_nat_zlen {A} (l : list A) : Z.to_nat (zlen l) = length l.
Proof. unfold zlen; lia. Qed.

Lemma zlen_image l : zlen (image l) = used l + 1.
Proof.
  induction l as [|m l IH]; [reflexivity|]. cbn [image used].
  rewrite zlen_app, IH, zlen_cons. lia.
Qed.

Lemma used_nonneg l : 0 <= used l.
Proof. induction l as [|m l IH]; cbn; [lia|]. pose proof (zlen_nonneg m). lia. Qed.

Lemma used_app a b : used (a ++ b) = used a + used b.
Proof. induction a as [|m a IH]; cbn; [lia|]. rewrite IH; lia. Qed.

Lemma image_app a b : image (a ++ b) = flat_map (fun m => zlen m :: m) a ++ image b.
Proof. induction a as [|m a IH]; cbn; auto. rewrite IH. now rewrite app_assoc. Qed.

Lemma zlen_flat a : zlen (flat_map (fun m : list Z => zlen m :: m) a) = used a.
Proof.
  induction a as [|m a IH]; [reflexivity|]. cbn [flat_map used].
  rewrite zlen_app, IH, zlen_cons. lia.
Qed.

Lemma used_lower sgn l : log_ok sgn l -> 2 * zlen l <= used l.
Proof.
  induction 1 as [|m l H _ IH]; [vm_compute; discriminate|]; cbn [used]. rewrite zlen_cons. lia.
Qed.

Lemma cval_ok sgn b : 0 <= b <= maxlen sgn -> cval sgn b = b.
Proof.
  unfold cval, maxlen. destruct sgn; cbn; auto.
  intros H. destruct (Z.leb_spec 128 b); lia.
Qed.

Lemma maxlen_le sgn : maxlen sgn <= 255.
Proof. destruct sgn; cbn; lia. Qed.

(** ** scanning a log that starts after [pre] *)
Lemma scan_log sgn l : log_ok sgn l -> forall fuel pre rest,
  (length l < fuel)%nat -> zlen pre + used l < 4294967296 ->
  ee_scan fuel (pre ++ image l ++ rest) (zlen pre) = Ok (zlen pre + used l).
Proof.
  induction 1 as [|m l Hm Hl IH]; intros fuel pre rest Hf Hs.
  - destruct fuel as [|fuel]; [lia|]. cbn [ee_scan image]. unfold ee_read.
    cbn [app]. rewrite zget_mid by reflexivity. cbn. f_equal; lia.
  - destruct fuel as [|fuel]; [cbn in Hf; lia|]. cbn [ee_scan image used] in *. unfold ee_read.
    cbn [app]. rewrite zget_mid by reflexivity. cbn [bind].
    destruct (Z.eqb_spec (zlen m) 0); [lia|].
    pose proof (used_nonneg l). pose proof (zlen_nonneg pre).
    rewrite u32_small by lia.
    replace (pre ++ zlen m :: (m ++ image l) ++ rest)
      with ((pre ++ zlen m :: m) ++ image l ++ rest)
      by (rewrite <- !app_assoc; cbn [app]; rewrite <- ?app_assoc; reflexivity).
    replace (zlen pre + (zlen m + 1)) with (zlen (pre ++ zlen m :: m))
      by (rewrite zlen_app, zlen_cons; lia).
    rewrite IH.
    + f_equal. rewrite zlen_app, zlen_cons; lia.
    + cbn in Hf; lia.
    + rewrite zlen_app, zlen_cons; lia.
Qed.

Lemma count_log sgn l : log_ok sgn l -> forall fuel pre rest c,
  (length l < fuel)%nat -> zlen pre + used l < 4294967296 ->
  ee_count fuel (pre ++ image l ++ rest) (zlen pre) c = Ok (c + zlen l).
Proof.
  induction 1 as [|m l Hm Hl IH]; intros fuel pre rest c Hf Hs.
  - destruct fuel as [|fuel]; [lia|]. cbn [ee_count image]. unfold ee_read.
    cbn [app]. rewrite zget_mid by reflexivity. cbn. f_equal; rewrite zlen_nil; lia.
  - destruct fuel as [|fuel]; [cbn in Hf; lia|]. cbn [ee_count image used] in *. unfold ee_read.
    cbn [app]. rewrite zget_mid by reflexivity. cbn [bind].
    destruct (Z.eqb_spec (zlen m) 0); [lia|].
    pose proof (used_nonneg l). pose proof (zlen_nonneg pre).
    rewrite u32_small by lia.
    replace (pre ++ zlen m :: (m ++ image l) ++ rest)
      with ((pre ++ zlen m :: m) ++ image l ++ rest)
      by (rewrite <- !app_assoc; cbn [app]; rewrite <- ?app_assoc; reflexivity).
    replace (zlen pre + (zlen m + 1)) with (zlen (pre ++ zlen m :: m))
      by (rewrite zlen_app, zlen_cons; lia).
    rewrite IH.
    + f_equal. rewrite zlen_cons; lia.
    + cbn in Hf; lia.
    + rewrite zlen_app, zlen_cons; lia.
Qed.

(** skipping [n] messages that are all there needs only those messages' bytes *)
Lemma skip_some sgn l : log_ok sgn l -> forall pre rest,
  zlen pre + used l < 4294967296 ->
  ee_skip (length l) (pre ++ flat_map (fun m => zlen m :: m) l ++ rest) (zlen pre) =
  Ok (Some (zlen pre + used l)).
Proof.
  induction 1 as [|m l Hm Hl IH]; intros pre rest Hs.
  - cbn. do 2 f_equal; lia.
  - cbn [ee_skip flat_map used length] in *. unfold ee_read.
    cbn [app]. rewrite zget_mid by reflexivity. cbn [bind].
    destruct (Z.eqb_spec (zlen m) 0); [lia|].
    pose proof (used_nonneg l). pose proof (zlen_nonneg pre).
    rewrite u32_small by lia.
    replace (pre ++ zlen m :: (m ++ flat_map (fun m => zlen m :: m) l) ++ rest)
      with ((pre ++ zlen m :: m) ++ flat_map (fun m => zlen m :: m) l ++ rest)
      by (rewrite <- !app_assoc; cbn [app]; rewrite <- ?app_assoc; reflexivity).
    replace (zlen pre + (zlen m + 1)) with (zlen (pre ++ zlen m :: m))
      by (rewrite zlen_app, zlen_cons; lia).
    rewrite IH.
    + do 2 f_equal. rewrite zlen_app, zlen_cons; lia.
    + rewrite zlen_app, zlen_cons; lia.
Qed.

Lemma skip_none sgn l : log_ok sgn l -> forall n pre rest,
  (length l < n)%nat -> zlen pre + used l < 4294967296 ->
  ee_skip n (pre ++ image l ++ rest) (zlen pre) = Ok None.
Proof.
  induction 1 as [|m l Hm Hl IH]; intros n pre rest Hf Hs.
  - destruct n as [|n]; [lia|]. cbn [ee_skip image]. unfold ee_read.
    cbn [app]. rewrite zget_mid by reflexivity. reflexivity.
  - destruct n as [|n]; [cbn in Hf; lia|]. cbn [ee_skip image used] in *. unfold ee_read.
    cbn [app]. rewrite zget_mid by reflexivity. cbn [bind].
    destruct (Z.eqb_spec (zlen m) 0); [lia|].
    pose proof (used_nonneg l). pose proof (zlen_nonneg pre).
    rewrite u32_small by lia.
    replace (pre ++ zlen m :: (m ++ image l) ++ rest)
      with ((pre ++ zlen m :: m) ++ image l ++ rest)
      by (rewrite <- !app_assoc; cbn [app]; rewrite <- ?app_assoc; reflexivity).
    replace (zlen pre + (zlen m + 1)) with (zlen (pre ++ zlen m :: m))
      by (rewrite zlen_app, zlen_cons; lia).
    rewrite IH; auto.
    + cbn in Hf; lia.
    + rewrite zlen_app, zlen_cons; lia.
Qed.

Lemma copy_ok m : forall pre post p i B,
  p + i = zlen pre -> 0 <= i -> i + zlen m <= B -> zlen pre + zlen m < 4294967296 ->
  ee_copy (length m) (pre ++ m ++ post) p i B = Ok m.
Proof.
  induction m as [|c m IH]; intros pre post p i B Hp Hi HB Hs; [reflexivity|].
  cbn [ee_copy length app]. rewrite zlen_cons in *. pose proof (zlen_nonneg m). pose proof (zlen_nonneg pre).
  unfold ee_read. rewrite u32_small by lia. rewrite zget_mid by lia. cbn [bind].
  destruct (Z.ltb_spec i B); [|lia].
  replace (pre ++ c :: m ++ post) with ((pre ++ [c]) ++ m ++ post) by (rewrite <- app_assoc; reflexivity).
  rewrite IH; auto; rewrite ?zlen_app; change (zlen [c]) with 1; lia.
Qed.

Lemma length_zlen {A} (l : list A) : length l = Z.to_nat (zlen l).
Proof. unfold zlen; lia. Qed.

(** message number [length l1] of a memory that begins with the records of [l1] and
    then the record of [m]; whatever follows does not matter *)
Lemma getMessage_at sgn l1 m post B : log_ok sgn (l1 ++ [m]) -> zlen m <= B ->
  used (l1 ++ [m]) < 4294967296 ->
  ee_getMessage sgn (flat_map (fun m => zlen m :: m) (l1 ++ [m]) ++ post) (zlen l1) B = Ok (zlen m, m).
Proof.
  intros HL HB Hs. unfold log_ok in HL.
  apply Forall_app in HL as [HL1 Hm]. inversion Hm as [|? ? Hm1 _]; subst.
  rewrite used_app in Hs. cbn in Hs. pose proof (used_nonneg l1).
  unfold ee_getMessage. rewrite to_nat_zlen.
  pose proof (skip_some sgn l1 HL1 [] ((zlen m :: m) ++ post)) as HS.
  rewrite zlen_nil in HS. cbn [app] in HS.
  rewrite flat_map_app. cbn [flat_map]. rewrite app_nil_r, <- app_assoc. cbn [app].
  rewrite HS by lia. cbn [bind].
  unfold ee_read. rewrite zget_mid by (rewrite zlen_flat; lia). cbn [bind].
  rewrite cval_ok by lia. pose proof (maxlen_le sgn).
  rewrite !u32_small by lia. rewrite to_nat_zlen.
  change (zlen m :: m ++ post) with ([zlen m] ++ m ++ post). rewrite app_assoc.
  rewrite copy_ok; auto; try lia; rewrite ?zlen_app, ?zlen_flat; change (zlen [zlen m]) with 1; lia.
Qed.

Lemma image_flat l : image l = flat_map (fun m => zlen m :: m) l ++ [0].
Proof. rewrite <- (app_nil_r l) at 1. rewrite image_app. reflexivity. Qed.

Lemma holds_used sgn mem l : holds sgn mem l -> used l + 1 <= 2048.
Proof.
  intros (H1 & H2 & rest & H3). subst. rewrite zlen_app, zlen_image in H1.
  pose proof (zlen_nonneg rest). lia.
Qed.

Lemma holds_fuel sgn mem l : holds sgn mem l -> (length l < scan_fuel)%nat.
Proof.
  intros H. pose proof (holds_used _ _ _ H) as HU. destruct H as (_ & HL & _).
  pose proof (used_lower _ _ HL) as HW. unfold scan_fuel. unfold zlen in HW. lia.
Qed.

Lemma holds_scan sgn mem l : holds sgn mem l -> ee_scan scan_fuel mem 0 = Ok (used l).
Proof.
  intros H. pose proof (holds_used _ _ _ H) as HU. pose proof (holds_fuel _ _ _ H) as HF.
  destruct H as (H1 & H2 & rest & ->).
  apply (scan_log sgn l H2 scan_fuel [] rest); auto. rewrite zlen_nil. lia.
Qed.

Lemma holds_count sgn mem l : holds sgn mem l -> ee_getNumberOfMessages mem = Ok (zlen l).
Proof.
  intros H. pose proof (holds_used _ _ _ H) as HU. pose proof (holds_fuel _ _ _ H) as HF.
  destruct H as (H1 & H2 & rest & ->). unfold ee_getNumberOfMessages.
  apply (count_log sgn l H2 scan_fuel [] rest 0); auto. rewrite zlen_nil. lia.
Qed.

Lemma holds_get sgn mem l i m B : holds sgn mem l -> nth_error l (Z.to_nat i) = Some m -> 0 <= i ->
  zlen m <= B -> ee_getMessage sgn mem i B = Ok (zlen m, m).
Proof.
  intros H HN Hi HB. pose proof (holds_used _ _ _ H) as HU. destruct H as (H1 & H2 & rest & ->).
  apply nth_error_split in HN as (l1 & l2 & -> & HL).
  replace i with (zlen l1) by (unfold zlen; lia).
  rewrite image_flat. replace (l1 ++ m :: l2) with ((l1 ++ [m]) ++ l2) in * by (rewrite <- app_assoc; reflexivity).
  rewrite flat_map_app, <- !app_assoc.
  unfold log_ok in H2. apply Forall_app in H2 as [H2 _]. rewrite used_app in HU. pose proof (used_nonneg l2).
  apply getMessage_at; auto. lia.
Qed.

Lemma holds_get_beyond sgn mem l i B : holds sgn mem l -> zlen l <= i ->
  ee_getMessage sgn mem i B = Ok (0, []).
Proof.
  intros H Hi. pose proof (holds_used _ _ _ H) as HU. destruct H as (H1 & H2 & rest & ->).
  unfold ee_getMessage. pose proof (used_nonneg l).
  destruct (Z.eq_dec i (zlen l)) as [->|Hne].
  - rewrite to_nat_zlen.
    pose proof (skip_some sgn l H2 [] ([0] ++ rest)) as HS. rewrite zlen_nil in HS. cbn [app] in HS.
    rewrite image_flat, <- app_assoc. cbn [app]. rewrite HS by lia. cbn [bind].
    unfold ee_read. rewrite zget_mid by (rewrite zlen_flat; lia). cbn [bind].
    replace (cval sgn 0) with 0 by (destruct sgn; reflexivity). reflexivity.
  - pose proof (skip_none sgn l H2 (Z.to_nat i) [] rest) as HS. rewrite zlen_nil in HS. cbn [app] in HS.
    rewrite HS; auto; unfold zlen in *; lia.
Qed.

(** ** append *)
Fixpoint dwrites (p : Z) (m : list Z) : list (Z * Z) :=
  match m with [] => [] | c :: m' => (p, c) :: dwrites (p + 1) m' end.

Lemma dataWrites_ok m : forall pre post i p, i = zlen pre -> 0 <= p -> p + zlen m < 4294967296 ->
  ee_dataWrites (length m) (pre ++ m ++ post) i p = Ok (dwrites p m).
Proof.
  induction m as [|c m IH]; intros pre post i p Hi Hp Hs; [reflexivity|].
  cbn [ee_dataWrites length app dwrites]. rewrite zlen_cons in Hs. pose proof (zlen_nonneg m).
  rewrite zget_mid by auto. cbn [bind]. rewrite u32_small by lia.
  replace (pre ++ c :: m ++ post) with ((pre ++ [c]) ++ m ++ post) by (rewrite <- app_assoc; reflexivity).
  rewrite IH; auto; rewrite ?zlen_app; change (zlen [c]) with 1; lia.
Qed.

(** the writes of an accepted append to a log of [used l] bytes *)
Definition awrites (u : Z) (m : list Z) : list (Z * Z) :=
  (u, zlen m) :: dwrites (u + 1) m ++ [(u + 1 + zlen m, 0)].

Lemma appendWrites_ok sgn mem l m post : holds sgn mem l -> zlen m <= maxlen sgn ->
  ee_appendWrites sgn mem (m ++ post) (zlen m) =
  Ok (if 2048 <? used l + zlen m + 1 then None else Some (awrites (used l) m)).
Proof.
  intros H Hm. pose proof (holds_used _ _ _ H) as HU. pose proof (used_nonneg l). pose proof (zlen_nonneg m).
  pose proof (maxlen_le sgn).
  unfold ee_appendWrites. rewrite (holds_scan _ _ _ H). cbn [bind].
  rewrite cval_ok by lia. unfold EEPROM_SIZE. rewrite !u32_small by lia.
  destruct (Z.ltb_spec 2048 (used l + zlen m + 1)); auto.
  rewrite to_nat_zlen.
  change (m ++ post) with ([] ++ m ++ post). rewrite dataWrites_ok; auto; try lia.

Qed.

(** applying writes at addresses >= u leaves the first u bytes alone *)
Lemma apply_prefix ws : forall mem mem' u, Forall (fun w => u <= fst w) ws -> 0 <= u ->
  ee_apply mem ws = Ok mem' -> zlen mem' = zlen mem /\ firstn (Z.to_nat u) mem' = firstn (Z.to_nat u) mem.
Proof.
  induction ws as [|[a v] ws IH]; intros mem mem' u HF Hu H; cbn [ee_apply] in H.
  - injection H as <-. auto.
  - apply bind_ok in H as (mem1 & H1 & H2). inversion HF as [|? ? Ha HF']; subst. cbn in Ha.
    unfold ee_write, zset in H1.
    destruct ((0 <=? a) && (a <? zlen mem)) eqn:E; [|discriminate]. injection H1 as <-.
    apply andb_true_iff in E as [E1 E2]. apply Z.leb_le in E1; apply Z.ltb_lt in E2.
    destruct (IH _ _ u HF' Hu H2) as [L1 L2]. rewrite zlen_upd in L1. split; auto.
    rewrite L2. clear - Ha E1 E2 Hu.
    assert (HH : (Z.to_nat u <= Z.to_nat a)%nat) by lia. revert HH. clear.
    generalize (Z.to_nat u) (Z.to_nat a). intros n k. revert n k.
    induction mem as [|x mem IH]; intros [|n] [|k] H; cbn; auto; try lia. f_equal. apply IH; lia.
Qed.

Lemma dwrites_ge m : forall p u, u <= p -> Forall (fun w => u <= fst w) (dwrites p m).
Proof. induction m as [|c m IH]; intros p u H; constructor; cbn; [lia|]. apply IH; lia. Qed.

Lemma awrites_ge u m : Forall (fun w => u <= fst w) (awrites u m).
Proof.
  pose proof (zlen_nonneg m).
  unfold awrites. constructor; [cbn; lia|]. apply Forall_app; split.
  - apply dwrites_ge; lia.
  - constructor; [cbn; lia|constructor].
Qed.

Lemma dwrites_apply m : forall pre old rest p, p = zlen pre -> length old = length m ->
  ee_apply (pre ++ old ++ rest) (dwrites p m) = Ok (pre ++ m ++ rest).
Proof.
  induction m as [|c m IH]; intros pre old rest p Hp Ho.
  - destruct old; [reflexivity|discriminate].
  - destruct old as [|o old]; [discriminate|]. cbn [dwrites ee_apply app]. unfold ee_write.
    rewrite zset_mid by auto. cbn [bind].
    replace (pre ++ c :: old ++ rest) with ((pre ++ [c]) ++ old ++ rest) by (rewrite <- app_assoc; reflexivity).
    rewrite IH.
    + rewrite <- app_assoc. reflexivity.
    + rewrite zlen_app; change (zlen [c]) with 1; lia.
    + cbn in Ho; lia.
Qed.

Lemma ee_apply_app ws1 : forall ws2 mem,
  ee_apply mem (ws1 ++ ws2) = do mem' <- ee_apply mem ws1; ee_apply mem' ws2.
Proof.
  induction ws1 as [|[a v] ws1 IH]; intros ws2 mem; cbn [ee_apply app bind]; auto.
  destruct (ee_write mem a v); cbn [bind]; auto.
Qed.

Lemma split_len {A} (l : list A) n : (n <= length l)%nat ->
  exists a b, l = a ++ b /\ length a = n.
Proof.
  intros H. exists (firstn n l), (skipn n l). split; [now rewrite firstn_skipn|].
  now rewrite firstn_length_le.
Qed.

Lemma awrites_apply sgn mem l m : holds sgn mem l -> used l + zlen m + 2 <= 2048 ->
  exists mem' rest', ee_apply mem (awrites (used l) m) = Ok mem' /\ zlen mem' = 2048 /\
    mem' = flat_map (fun m => zlen m :: m) l ++ (zlen m :: m) ++ 0 :: rest'.
Proof.
  intros (H1 & H2 & rest & ->) HF. rewrite zlen_app, zlen_image in H1.
  destruct (split_len rest (length m)) as (old & r2 & -> & HO).
  { unfold zlen in *. lia. }
  rewrite zlen_app in H1.
  assert (1 <= zlen r2) as HR by (unfold zlen in *; lia).
  destruct r2 as [|x r2]; [unfold zlen in HR; cbn in HR; lia|].
  unfold awrites. rewrite image_flat, <- app_assoc. cbn [app].
  cbn [ee_apply]. unfold ee_write. rewrite zset_mid by (now rewrite zlen_flat). cbn [bind].
  rewrite ee_apply_app.
  set (F := flat_map (fun m => zlen m :: m) l).
  replace (F ++ zlen m :: old ++ x :: r2) with ((F ++ [zlen m]) ++ old ++ x :: r2)
    by (rewrite <- app_assoc; reflexivity).
  assert (HFl : zlen (F ++ [zlen m]) = used l + 1).
  { unfold F. rewrite zlen_app, zlen_flat. reflexivity. }
  rewrite dwrites_apply by (auto; lia). cbn [bind ee_apply]. unfold ee_write.
  rewrite app_assoc. rewrite zset_mid by (rewrite zlen_app; lia). cbn [bind].
  do 2 eexists. splits; [reflexivity| |].
  - rewrite zlen_cons in H1. rewrite zlen_app, zlen_app, HFl, zlen_cons.
    assert (zlen old = zlen m) by (unfold zlen; lia). lia.
  - rewrite <- !app_assoc. reflexivity.
Qed.

Lemma holds_clear sgn s : zlen (emem s) = 2048 ->
  exists s', ee_clear s = Ok s' /\ holds sgn (emem s') [] /\ eptr s' = 1.
Proof.
  intros H. unfold ee_clear, ee_write. rewrite zset_ok by lia. cbn [bind].
  eexists; split; [reflexivity|]. cbn. split; auto.
  unfold holds. rewrite zlen_upd. splits; auto; [constructor|].
  destruct (emem s) as [|x r]; [unfold zlen in H; cbn in H; lia|]. cbn. eauto.
Qed.

Lemma append_holds sgn s l m x post : holds sgn (emem s) l -> zlen m <= maxlen sgn ->
  ~ exact_fill l m ->
  exists s' arr, ee_appendMessage sgn s (m ++ x :: post) (zlen m) = Ok (s', arr) /\
    holds sgn (emem s') (log_append l m) /\ eptr s' = eptr s.
Proof.
  intros H Hm HE. unfold exact_fill in HE.
  pose proof (holds_used _ _ _ H) as HU. pose proof (zlen_nonneg m).
  unfold ee_appendMessage. rewrite (appendWrites_ok sgn _ l) by auto. cbn [bind].
  destruct (Z.ltb_spec 2048 (used l + zlen m + 1)) as [L|L].
  - do 2 eexists; splits; [reflexivity| |reflexivity].
    unfold log_append. destruct m as [|c m']; auto.
    destruct (Z.leb_spec (used l + zlen (c :: m') + 2) 2048); [lia|auto].
  - destruct (awrites_apply sgn _ l m H) as (mem' & rest' & E & L' & F); [lia|].
    rewrite E. cbn [bind]. rewrite cval_ok by lia.
    rewrite zset_mid by auto. cbn [bind].
    do 2 eexists; splits; [reflexivity| |reflexivity]. cbn [emem].
    destruct H as (H1 & H2 & rest & H3).
    unfold holds. splits; auto.
    + unfold log_append. destruct m as [|c m']; auto.
      destruct (used l + zlen (c :: m') + 2 <=? 2048); auto. unfold log_ok. apply Forall_app; split; auto.
      repeat constructor; auto. rewrite zlen_cons. pose proof (zlen_nonneg m'). lia.
    + unfold log_append. destruct m as [|c m'].
      * exists (0 :: rest'). rewrite image_flat, <- app_assoc, F. reflexivity.
      * destruct (Z.leb_spec (used l + zlen (c :: m') + 2) 2048); [|lia].
        exists rest'. rewrite image_app. cbn [image]. rewrite F, <- !app_assoc. reflexivity.
Qed.

Lemma append_exact_fill sgn s l m post : holds sgn (emem s) l -> zlen m <= maxlen sgn ->
  exact_fill l m -> ee_appendMessage sgn s (m ++ post) (zlen m) = Ub OobWrite.
Proof.
  intros H Hm HE. unfold exact_fill in HE.
  unfold ee_appendMessage. rewrite (appendWrites_ok sgn _ l) by auto. cbn [bind].
  destruct (Z.ltb_spec 2048 (used l + zlen m + 1)) as [L|L]; [lia|].
  destruct H as (H1 & H2 & rest & HM). rewrite HM in *. rewrite zlen_app, zlen_image in H1.
  unfold awrites. rewrite image_flat, <- app_assoc. cbn [app].
  cbn [ee_apply]. unfold ee_write. rewrite zset_mid by (now rewrite zlen_flat). cbn [bind].
  rewrite ee_apply_app.
  set (F := flat_map (fun m => zlen m :: m) l).
  replace (F ++ zlen m :: rest) with ((F ++ [zlen m]) ++ rest ++ [])
    by (rewrite app_nil_r, <- app_assoc; reflexivity).
  assert (HFl : zlen (F ++ [zlen m]) = used l + 1).
  { unfold F. rewrite zlen_app, zlen_flat. reflexivity. }
  rewrite dwrites_apply; [|lia|unfold zlen in *; lia]. cbn [bind ee_apply]. unfold ee_write.
  rewrite zset_oob; [reflexivity|]. right. rewrite app_nil_r, zlen_app. lia.
Qed.

(** ** histories *)
Lemma appendAll_holds sgn ms : forall s l, holds sgn (emem s) l ->
  Forall (fun m => zlen m <= maxlen sgn) ms -> no_exact_fill l ms ->
  exists s', ee_appendAll sgn s ms = Ok s' /\ holds sgn (emem s') (fold_left log_append ms l) /\ eptr s' = eptr s.
Proof.
  induction ms as [|m ms IH]; intros s l H HM HN; cbn [ee_appendAll fold_left].
  - eauto.
  - inversion HM as [|? ? Hm HM']; subst. destruct HN as [HN1 HN2].
    destruct (append_holds sgn s l m 0 [] H Hm HN1) as (s1 & arr & E & H1 & P1).
    rewrite E. cbn [bind]. destruct (IH s1 _ H1 HM' HN2) as (s2 & E2 & H2 & P2).
    exists s2. splits; auto. lia.
Qed.

(** ** crash *)
Lemma crash_keeps sgn mem l m post k mem' : holds sgn mem l -> zlen m <= maxlen sgn ->
  ee_appendCrash sgn mem (m ++ post) (zlen m) k = Ok mem' ->
  forall i old B, 0 <= i -> nth_error l (Z.to_nat i) = Some old -> zlen old <= B ->
  ee_getMessage sgn mem' i B = Ok (zlen old, old).
Proof.
  intros H Hm HC i old B Hi HN HB.
  unfold ee_appendCrash in HC. rewrite (appendWrites_ok sgn _ l) in HC by auto. cbn [bind] in HC.
  destruct (2048 <? used l + zlen m + 1).
  { injection HC as <-. eapply holds_get; eauto. }
  pose proof (used_nonneg l).
  destruct (apply_prefix (firstn k (awrites (used l) m)) mem mem' (used l)) as [HL HP]; auto.
  { pose proof (awrites_ge (used l) m) as HG. clear - HG. revert k. induction HG; intros [|k]; cbn; constructor; auto. }
  pose proof (holds_used _ _ _ H) as HU. destruct H as (H1 & H2 & rest & ->).
  set (F := flat_map (fun m => zlen m :: m) l) in *.
  assert (HF : length F = Z.to_nat (used l)) by (rewrite length_zlen; unfold F; now rewrite zlen_flat).
  rewrite image_flat, <- app_assoc in HP. fold F in HP.
  rewrite <- HF in HP. rewrite firstn_app, Nat.sub_diag, firstn_all in HP. cbn [firstn] in HP.
  rewrite app_nil_r in HP.
  rewrite <- (firstn_skipn (length F) mem'), HP.
  apply nth_error_split in HN as (l1 & l2 & -> & HL1).
  replace i with (zlen l1) by (unfold zlen; lia).
  unfold F at 1.
  replace (l1 ++ old :: l2) with ((l1 ++ [old]) ++ l2) in * by (rewrite <- app_assoc; reflexivity).
  rewrite flat_map_app, <- !app_assoc.
  unfold log_ok in H2. apply Forall_app in H2 as [H2 _]. rewrite used_app in HU. pose proof (used_nonneg l2).
  apply getMessage_at; auto. lia.
Qed.

(** the crash itself never faults (unless the append would) *)
Lemma crash_total sgn mem l m post k : holds sgn mem l -> zlen m <= maxlen sgn -> ~ exact_fill l m ->
  exists mem', ee_appendCrash sgn mem (m ++ post) (zlen m) k = Ok mem'.
Proof.
  intros H Hm HE. unfold exact_fill in HE. unfold ee_appendCrash.
  rewrite (appendWrites_ok sgn _ l) by auto. cbn [bind].
  destruct (Z.ltb_spec 2048 (used l + zlen m + 1)) as [L|L]; [eauto|].
  destruct (awrites_apply sgn _ l m H) as (mem' & rest' & E & _ & _); [lia|].
  rewrite <- (firstn_skipn k (awrites (used l) m)), ee_apply_app in E.
  apply bind_ok in E as (mem1 & E1 & _). eauto.
Qed.

(** ** replay *)
Lemma next_ok sgn s l B : holds sgn (emem s) l -> 1 <= eptr s -> Forall (fun m => zlen m <= B) l ->
  2 <= zlen l ->
  let i := if zlen l <=? eptr s then 1 else eptr s in
  ee_getNextMessage sgn s B =
    Ok (zlen (nth (Z.to_nat i) l []), nth (Z.to_nat i) l [], mkStore (emem s) (i + 1)) /\ 1 <= i < zlen l.
Proof.
  intros H HP HB H2. cbn. unfold ee_getNextMessage. rewrite (holds_count _ _ _ H). cbn [bind].
  set (i := if zlen l <=? eptr s then 1 else eptr s).
  assert (Hi : 1 <= i < zlen l) by (unfold i; destruct (Z.leb_spec (zlen l) (eptr s)); lia).
  split; auto.
  assert (HN : nth_error l (Z.to_nat i) = Some (nth (Z.to_nat i) l [])).
  { apply nth_error_nth'. unfold zlen in Hi; lia. }
  rewrite (holds_get sgn _ l i _ B H HN); auto; [lia|].
  rewrite Forall_forall in HB. apply HB. eapply nth_error_In; eauto.
Qed.

Lemma replay_cycle sgn l B n : forall s k, holds sgn (emem s) l -> Forall (fun m => zlen m <= B) l ->
  2 <= zlen l -> 0 <= k ->
  (eptr s = 1 + k mod (zlen l - 1) \/ (k mod (zlen l - 1) = 0 /\ eptr s = zlen l)) ->
  exists s', ee_replay sgn n s B =
    Ok (map (fun j => let m := nth (Z.to_nat (1 + (k + Z.of_nat j) mod (zlen l - 1))) l [] in (zlen m, m))
            (seq 0 n), s').
Proof.
  induction n as [|n IH]; intros s k H HB H2 Hk HP; cbn [ee_replay seq map].
  - eauto.
  - pose proof (Z.mod_pos_bound k (zlen l - 1) ltac:(lia)) as HM.
    assert (Hptr : 1 <= eptr s) by lia.
    destruct (next_ok sgn s l B H Hptr HB H2) as [E Hi]. cbn in E, Hi.
    set (i := if zlen l <=? eptr s then 1 else eptr s) in *.
    assert (Ei : i = 1 + k mod (zlen l - 1)).
    { unfold i. destruct (Z.leb_spec (zlen l) (eptr s)); lia. }
    rewrite E. cbn [bind].
    destruct (IH (mkStore (emem s) (i + 1)) (k + 1)) as (s' & E'); auto; try lia.
    { cbn [eptr].
      destruct (Z.eq_dec (k mod (zlen l - 1)) (zlen l - 2)) as [Eq|Ne].
      - right. split; [|lia].
        rewrite Zplus_mod, Eq.
        destruct (Z.eq_dec (zlen l - 1) 1) as [E1|N1].
        + rewrite E1. apply Z.mod_1_r.
        + rewrite (Z.mod_small 1) by lia. replace (zlen l - 2 + 1) with (zlen l - 1) by lia.
          apply Z.mod_same. lia.
      - left. rewrite Zplus_mod.
        rewrite (Z.mod_small 1 (zlen l - 1)) by lia.
        rewrite (Z.mod_small (_ + 1)) by lia. lia. }
    rewrite E'. cbn [bind]. exists s'.
    rewrite Z.add_0_r, Ei.
    rewrite <- seq_shift, map_map. do 3 f_equal.
    apply map_ext. intros j. replace (k + Z.of_nat (S j)) with (k + 1 + Z.of_nat j) by lia. reflexivity.
Qed.

Lemma replay_short sgn s l B : holds sgn (emem s) l -> 1 <= eptr s -> zlen l <= 1 ->
  exists s', ee_getNextMessage sgn s B = Ok (0, [], s') /\ emem s' = emem s /\ 1 <= eptr s'.
Proof.
  intros H HP HL. unfold ee_getNextMessage. rewrite (holds_count _ _ _ H). cbn [bind].
  destruct (Z.leb_spec (zlen l) (eptr s)); [|lia].
  rewrite (holds_get_beyond sgn _ l) by (auto; lia). cbn [bind].
  eexists; splits; [reflexivity|reflexivity|cbn; lia].
Qed.

(** ** which bytes an append can change *)
Lemma apply_other ws : forall mem mem' lo hi, Forall (fun w => lo <= fst w <= hi) ws ->
  ee_apply mem ws = Ok mem' ->
  forall a, a < lo \/ hi < a -> ee_read mem' a = ee_read mem a.
Proof.
  induction ws as [|[b v] ws IH]; intros mem mem' lo hi HF H a Ha; cbn [ee_apply] in H.
  - injection H as <-. auto.
  - apply bind_ok in H as (mem1 & H1 & H2). inversion HF as [|? ? Hb HF']; subst. cbn in Hb.
    rewrite (IH _ _ _ _ HF' H2 a Ha).
    unfold ee_write, zset in H1.
    destruct ((0 <=? b) && (b <? zlen mem)) eqn:E; [|discriminate]. injection H1 as <-.
    unfold ee_read, zget. rewrite zlen_upd.
    destruct ((0 <=? a) && (a <? zlen mem)) eqn:E2; auto.
    apply andb_true_iff in E as [E _]. apply andb_true_iff in E2 as [E2 _].
    apply Z.leb_le in E. apply Z.leb_le in E2.
    rewrite nth_error_upd_other by lia. reflexivity.
Qed.

Lemma dwrites_between m : forall p lo hi, lo <= p -> p + zlen m - 1 <= hi ->
  Forall (fun w => lo <= fst w <= hi) (dwrites p m).
Proof.
  induction m as [|c m IH]; intros p lo hi H1 H2; constructor; rewrite zlen_cons in H2;
    pose proof (zlen_nonneg m).
  - cbn; lia.
  - apply IH; lia.
Qed.

Lemma append_frame sgn s l m post s' arr : holds sgn (emem s) l -> zlen m <= maxlen sgn ->
  ee_appendMessage sgn s (m ++ post) (zlen m) = Ok (s', arr) ->
  (2048 < used l + zlen m + 1 -> s' = s) /\
  (forall a, a < used l \/ used l + zlen m + 1 < a -> ee_read (emem s') a = ee_read (emem s) a) /\
  zlen (emem s') = zlen (emem s).
Proof.
  intros H Hm E. unfold ee_appendMessage in E.
  rewrite (appendWrites_ok sgn _ l) in E by auto. cbn [bind] in E.
  destruct (Z.ltb_spec 2048 (used l + zlen m + 1)) as [L|L].
  - injection E as <- <-. auto.
  - apply bind_ok in E as (mem' & E1 & E2). apply bind_ok in E2 as (msg' & E2 & E3).
    injection E3 as <- <-. cbn [emem]. pose proof (zlen_nonneg m). pose proof (used_nonneg l).
    splits; [lia| |].
    + apply (apply_other _ _ _ (used l) (used l + zlen m + 1)) with (2 := E1).
      unfold awrites. constructor; [cbn; lia|]. apply Forall_app; split.
      * apply dwrites_between; lia.
      * repeat constructor; cbn; lia.
    + destruct (apply_prefix _ _ _ (used l) (awrites_ge _ _) ltac:(lia) E1) as [HL _]. exact HL.
Qed.

(** ** the statements of the property file *)
Lemma store_is_append_log sgn s0 ms :
  zlen (emem s0) = 2048 -> Forall (fun m => zlen m <= maxlen sgn) ms -> no_exact_fill [] ms ->
  exists s1 s,
    ee_clear s0 = Ok s1 /\ ee_appendAll sgn s1 ms = Ok s /\
    let l := fold_left log_append ms [] in
    ee_getNumberOfMessages (emem s) = Ok (zlen l) /\
    (forall i m B, 0 <= i -> nth_error l (Z.to_nat i) = Some m -> zlen m <= B ->
                   ee_getMessage sgn (emem s) i B = Ok (zlen m, m)) /\
    (forall i B, zlen l <= i -> ee_getMessage sgn (emem s) i B = Ok (0, [])).
Proof.
  intros H HM HN.
  destruct (holds_clear sgn s0 H) as (s1 & E1 & H1 & P1).
  destruct (appendAll_holds sgn ms s1 [] H1 HM HN) as (s & E & HS & P).
  exists s1, s. splits; auto. cbn.
  splits.
  - eapply holds_count; eauto.
  - intros i m B Hi HNth HB. eapply holds_get; eauto.
  - intros i B Hi. eapply holds_get_beyond; eauto.
Qed.

Lemma fold_log_all ms : forall l, used l + used ms + 1 <= 2048 -> Forall (fun m => m <> []) ms ->
  fold_left log_append ms l = l ++ ms /\ no_exact_fill l ms.
Proof.
  induction ms as [|m ms IH]; intros l H HF; cbn [fold_left no_exact_fill].
  - rewrite app_nil_r. auto.
  - inversion HF as [|? ? Hm HF']; subst. cbn [used] in H. pose proof (used_nonneg ms).
    assert (E : log_append l m = l ++ [m]).
    { unfold log_append. destruct m; [congruence|].
      destruct (Z.leb_spec (used l + zlen (z :: m) + 2) 2048); auto. lia. }
    rewrite E. destruct (IH (l ++ [m])) as [E1 E2]; auto.
    { rewrite used_app. cbn. lia. }
    rewrite E1, <- app_assoc. splits; auto. unfold exact_fill. lia.
Qed.
