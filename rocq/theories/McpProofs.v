From Verif Require Import Base RingModel RingSpec RingProofs EepromModel EepromSpec EepromProofs
  McpModel McpSpec.
Open Scope Z_scope.

Ltac bsolve :=
  repeat match goal with
  | |- context [Z.leb ?a ?b] => destruct (Z.leb_spec a b)
  | |- context [Z.ltb ?a ?b] => destruct (Z.ltb_spec a b)
  | |- context [Z.eqb ?a ?b] => destruct (Z.eqb_spec a b)
  end; cbn; try reflexivity; try lia.

Lemma upper_toUpper c : toUpper c = upper c.
Proof. unfold toUpper, upper. destruct ((97 <=? c) && (c <=? 122)); lia. Qed.

Lemma accepts_payload c : f_accepts c = payload_char c.
Proof. unfold f_accepts, payload_char. bsolve. Qed.

Lemma upper_cases c : upper c = c \/ (97 <= c <= 122 /\ upper c = c - 32).
Proof.
  unfold upper. destruct (Z.leb_spec 97 c); cbn; auto. destruct (Z.leb_spec c 122); auto.
Qed.

Lemma upper_eqb c k : (k < 65 \/ 122 < k) -> (upper c =? k) = (c =? k).
Proof.
  intros Hk. destruct (upper_cases c) as [->|[H1 H2]]; auto.
  rewrite H2. destruct (Z.eqb_spec (c - 32) k), (Z.eqb_spec c k); auto; lia.
Qed.

(** ** payload of a growing frame *)
Lemma code_part_app f c : existsb is_comment f = false ->
  code_part (f ++ [c]) = f ++ code_part [c].
Proof.
  induction f as [|x f IH]; cbn [app code_part existsb]; auto. intros H.
  apply orb_false_iff in H as [H1 H2]. rewrite H1. f_equal. auto.
Qed.
Lemma code_part_app_c f c : existsb is_comment f = true -> code_part (f ++ [c]) = code_part f.
Proof.
  induction f as [|x f IH]; cbn [app code_part existsb]; [discriminate|]. intros H.
  destruct (is_comment x); auto. f_equal. auto.
Qed.
Lemma comment_part_app f c : existsb is_comment f = false ->
  comment_part (f ++ [c]) = comment_part [c].
Proof.
  induction f as [|x f IH]; cbn [app comment_part existsb]; auto. intros H.
  apply orb_false_iff in H as [H1 H2]. rewrite H1. auto.
Qed.
Lemma comment_part_app_c f c : existsb is_comment f = true -> comment_part (f ++ [c]) = comment_part f ++ [c].
Proof.
  induction f as [|x f IH]; cbn [app comment_part existsb]; [discriminate|]. intros H.
  destruct (is_comment x); auto.
Qed.
Lemma code_part_none f : existsb is_comment f = false -> code_part f = f.
Proof.
  induction f as [|x f IH]; cbn [app code_part existsb]; auto. intros H.
  apply orb_false_iff in H as [H1 H2]. rewrite H1. f_equal. auto.
Qed.
Lemma comment_part_none f : existsb is_comment f = false -> comment_part f = [].
Proof.
  induction f as [|x f IH]; cbn [app comment_part existsb]; auto. intros H.
  apply orb_false_iff in H as [H1 H2]. rewrite H1. auto.
Qed.

Lemma after_colon_none f : existsb is_colon f = false -> after_colon f = f.
Proof.
  destruct f as [|c r]; auto. cbn [after_colon existsb]. intros H.
  apply orb_false_iff in H as [-> ->]. reflexivity.
Qed.

Lemma after_colon_app f c : is_colon c = false -> after_colon (f ++ [c]) = after_colon f ++ [c].
Proof.
  intros Hc. induction f as [|x f IH]; cbn [app after_colon existsb].
  - rewrite Hc. reflexivity.
  - rewrite existsb_app. cbn [existsb]. rewrite Hc, !orb_false_r.
    destruct (existsb is_colon f); auto. destruct (is_colon x); reflexivity.
Qed.

Lemma after_colon_colon f c : is_colon c = true -> after_colon (f ++ [c]) = [].
Proof.
  intros Hc. induction f as [|x f IH]; cbn [app after_colon existsb].
  - rewrite Hc. reflexivity.
  - rewrite existsb_app. cbn [existsb]. rewrite Hc, orb_true_r. exact IH.
Qed.

Lemma payload_nil : payload [] = [].
Proof. reflexivity. Qed.

Lemma payload_snoc_comment f c : existsb is_comment f = true ->
  payload (f ++ [c]) = if is_colon c then [] else payload f.
Proof.
  intros H. unfold payload, clean. rewrite code_part_app_c, comment_part_app_c by auto.
  rewrite existsb_app. cbn [existsb]. rewrite orb_false_r.
  destruct (is_colon c); rewrite ?orb_true_r, ?orb_false_r; reflexivity.
Qed.

Lemma payload_snoc_open f c : existsb is_comment f = false -> is_comment c = true ->
  payload (f ++ [c]) = payload f.
Proof.
  intros H Hc. unfold payload, clean. rewrite code_part_app, comment_part_app by auto.
  cbn [code_part comment_part]. rewrite Hc. cbn [existsb].
  assert (is_colon c = false) as ->.
  { unfold is_comment, is_colon in *. apply orb_true_iff in Hc as [Hc|Hc]; apply Z.eqb_eq in Hc; subst; reflexivity. }
  rewrite (code_part_none f), (comment_part_none f) by auto. cbn. now rewrite app_nil_r.
Qed.

Lemma payload_snoc_colon f c : existsb is_comment f = false -> is_colon c = true ->
  payload (f ++ [c]) = [].
Proof.
  intros H Hc. unfold payload, clean. rewrite code_part_app, comment_part_app by auto.
  cbn [code_part comment_part].
  assert (is_comment c = false) as ->.
  { unfold is_comment, is_colon in *. apply Z.eqb_eq in Hc; subst; reflexivity. }
  cbn [existsb]. rewrite after_colon_colon by auto. reflexivity.
Qed.

Lemma payload_snoc_plain f c : existsb is_comment f = false -> is_colon c = false -> is_comment c = false ->
  payload (f ++ [c]) = payload f ++ (if payload_char (upper c) then [upper c] else []).
Proof.
  intros H Hc Hk. unfold payload, clean. rewrite code_part_app, comment_part_app by auto.
  rewrite (code_part_none f), (comment_part_none f) by auto.
  cbn [code_part comment_part]. rewrite Hk. cbn [existsb]. rewrite after_colon_app by auto.
  rewrite map_app, filter_app. cbn [map filter]. destruct (payload_char (upper c)); reflexivity.
Qed.

(** the statics after the bytes [cur] of an unfinished frame *)
Definition FInv (s : fstate) (cur : list Z) : Prop :=
  ffull s = false /\
  fcomment s = existsb is_comment cur /\
  (cur = [] -> fstarted s = false) /\
  (cur <> [] -> fstarted s = true /\ fbuf s = payload cur).

Lemma FInv_init : FInv f_init [].
Proof. unfold FInv; cbn. splits; auto. Qed.

(** a byte other than CR *)
Lemma parseChar_other s cur c : FInv s cur -> c <> 13 ->
  zlen (payload cur) <= 78 -> zlen (payload (cur ++ [c])) <= 78 ->
  exists s', f_parseChar s c = Ok (s', None) /\ FInv s' (cur ++ [c]).
Proof.
  intros (I1 & I2 & I3 & I4) Hc HL HL2.
  assert (Hne : cur ++ [c] <> []) by (destruct cur; discriminate).
  unfold f_parseChar. rewrite upper_toUpper.
  rewrite !(upper_eqb c) by lia.
  destruct (Z.eqb_spec c 13); [congruence|].
  set (s1 := if negb (fstarted s) || (c =? 58) then mkF true [] (ffull s) (fcomment s) else s).
  assert (Hs1 : fstarted s1 = true /\ ffull s1 = false /\ fcomment s1 = existsb is_comment cur /\
                fbuf s1 = if c =? 58 then [] else payload cur).
  { unfold s1. destruct cur as [|x cur].
    - rewrite I3 by auto. cbn [negb orb]. cbn. splits; auto. now destruct (c =? 58).
    - destruct I4 as [J1 J2]; [discriminate|]. rewrite J1. cbn [negb orb].
      destruct (c =? 58); cbn; splits; auto. }
  clearbody s1. destruct Hs1 as (S1 & S2 & S3 & S4).
  assert (HC : (c =? 35) || (c =? 40) = is_comment c) by reflexivity. rewrite HC. clear HC.
  destruct (existsb is_comment cur) eqn:EC.
  - (* inside a comment *)
    rewrite S3, orb_true_r. eexists; split; [reflexivity|].
    unfold FInv; cbn. rewrite existsb_app, EC. splits; auto.
    + intros E. now destruct (Hne E).
    + intros _. split; auto. rewrite S4, payload_snoc_comment by auto. unfold is_colon. reflexivity.
  - rewrite S3, orb_false_r.
    destruct (is_comment c) eqn:EK.
    + eexists; split; [reflexivity|].
      unfold FInv; cbn. rewrite existsb_app, EC. cbn [existsb]. rewrite EK. splits; auto.
      * intros E. now destruct (Hne E).
      * intros _. split; auto. rewrite S4, payload_snoc_open by auto.
        destruct (Z.eqb_spec c 58); auto. subst. discriminate.
    + assert (HF : existsb is_comment (cur ++ [c]) = false).
      { rewrite existsb_app, EC. cbn [existsb]. now rewrite EK. }
      destruct (Z.eqb_spec c 58) as [E58|N58].
      * eexists; split; [reflexivity|]. unfold FInv. rewrite HF. splits; auto.
        -- intros E. now destruct (Hne E).
        -- intros _. split; auto. rewrite S4, payload_snoc_colon by (auto; subst; reflexivity). reflexivity.
      * assert (HNC : is_colon c = false) by (unfold is_colon; now apply Z.eqb_neq).
        rewrite accepts_payload.
        rewrite payload_snoc_plain in HL2 by auto.
        destruct (payload_char (upper c)) eqn:EP.
        -- rewrite S4. unfold INPUT_BUFFER_SIZE.
           destruct (Z.ltb_spec (zlen (payload cur)) 80); [|lia].
           destruct (Z.leb_spec 80 (zlen (payload cur ++ [upper c]))); [lia|].
           eexists; split; [reflexivity|]. unfold FInv; cbn. rewrite HF. splits; auto.
           ++ intros E. now destruct (Hne E).
           ++ intros _. split; auto. rewrite payload_snoc_plain by auto. now rewrite EP.
        -- eexists; split; [reflexivity|]. unfold FInv. rewrite HF. splits; auto.
           ++ intros E. now destruct (Hne E).
           ++ intros _. split; auto. rewrite S4, payload_snoc_plain by auto. rewrite EP, app_nil_r. reflexivity.
Qed.

(** the carriage return *)
Lemma parseChar_cr s cur : FInv s cur -> zlen (payload cur) <= 78 ->
  exists s', f_parseChar s 13 = Ok (s', Some (payload cur)) /\ FInv s' [].
Proof.
  intros (I1 & I2 & I3 & I4) HL.
  unfold f_parseChar. change (toUpper 13) with 13. cbn [Z.eqb Pos.eqb]. rewrite orb_false_r.
  set (s1 := if negb (fstarted s) then mkF true [] (ffull s) (fcomment s) else s).
  assert (Hs1 : ffull s1 = false /\ fbuf s1 = payload cur).
  { unfold s1. destruct cur as [|x cur].
    - rewrite I3 by auto. cbn. auto.
    - destruct I4 as [J1 J2]; [discriminate|]. rewrite J1. cbn. auto. }
  clearbody s1. destruct Hs1 as [-> ->]. unfold INPUT_BUFFER_SIZE.
  destruct (Z.ltb_spec (zlen (payload cur) + 1) 80); [|lia].
  eexists; split; [reflexivity|]. unfold FInv; cbn. splits; auto. congruence.
Qed.

(** exact condition for the fault at a carriage return *)
Lemma parseChar_cr_fault s cur : FInv s cur -> 79 <= zlen (payload cur) ->
  f_parseChar s 13 = Ub OobWrite.
Proof.
  intros (I1 & I2 & I3 & I4) HL.
  unfold f_parseChar. change (toUpper 13) with 13. cbn [Z.eqb Pos.eqb]. rewrite orb_false_r.
  destruct cur as [|x cur]. { rewrite payload_nil in HL. unfold zlen in HL; cbn in HL; lia. }
  destruct I4 as [J1 J2]; [discriminate|]. rewrite J1. cbn [negb].
  rewrite J2. unfold INPUT_BUFFER_SIZE. destruct (Z.ltb_spec (zlen (payload (x :: cur)) + 1) 80); [lia|reflexivity].
Qed.

(** ** streams *)
Lemma frames_no_cr s : ~ In 13 s -> frames s = [].
Proof.
  induction s as [|c r IH]; cbn; auto. intros H.
  destruct (Z.eqb_spec c 13); [exfalso; auto|]. rewrite IH by tauto. reflexivity.
Qed.

Lemma frames_snoc_frame cur r : ~ In 13 cur -> frames (cur ++ 13 :: r) = cur :: frames r.
Proof.
  induction cur as [|c cur IH]; intros H; cbn [app frames].
  - reflexivity.
  - destruct (Z.eqb_spec c 13); [exfalso; apply H; cbn; auto|].
    rewrite IH by (cbn in H; tauto). reflexivity.
Qed.

Lemma feed_frames rest : forall s cur done, FInv s cur -> ~ In 13 cur ->
  (done = [] \/ exists d, done = d ++ [13]) -> zlen (payload cur) <= 78 ->
  (forall pre post, rest = pre ++ post -> forall d2 c2, done ++ cur ++ pre = d2 ++ c2 ->
     (d2 = [] \/ exists d, d2 = d ++ [13]) -> ~ In 13 c2 -> zlen (payload c2) <= 78) ->
  exists s', f_feed s rest = Ok (map payload (frames (cur ++ rest)), s').
Proof.
  induction rest as [|c rest IH]; intros s cur done I HN HD HL HS; cbn [f_feed].
  - rewrite app_nil_r, frames_no_cr by auto. eexists; reflexivity.
  - destruct (Z.eq_dec c 13) as [->|Hc].
    + destruct (parseChar_cr s cur I HL) as (s1 & E & I1). rewrite E. cbn [bind].
      destruct (IH s1 [] (done ++ cur ++ [13]) I1) as (s2 & E2).
      * auto.
      * right. exists (done ++ cur). now rewrite app_assoc.
      * rewrite payload_nil. vm_compute; discriminate.
      * intros pre post -> d2 c2 Heq Hd2 Hc2. cbn [app] in Heq.
        apply (HS (13 :: pre) post eq_refl d2 c2); auto.
        rewrite <- Heq, <- !app_assoc. reflexivity.
      * rewrite E2. cbn [bind]. cbn [app] in *. rewrite frames_snoc_frame by auto. cbn [map].
        eexists; reflexivity.
    + assert (HL2 : zlen (payload (cur ++ [c])) <= 78).
      { apply (HS [c] rest eq_refl done (cur ++ [c])); auto.
        rewrite in_app_iff; cbn. intros [?|[?|[]]]; auto. }
      destruct (parseChar_other s cur c I Hc HL HL2) as (s1 & E & I1). rewrite E. cbn [bind].
      destruct (IH s1 (cur ++ [c]) done I1) as (s2 & E2); auto.
      * rewrite in_app_iff; cbn. intros [?|[?|[]]]; auto.
      * intros pre post -> d2 c2 Heq Hd2 Hc2.
        apply (HS (c :: pre) post eq_refl d2 c2); auto.
        rewrite <- Heq, <- !app_assoc. reflexivity.
      * rewrite E2. cbn [bind]. rewrite <- app_assoc. cbn [app]. eexists; reflexivity.
Qed.

Lemma feed_spec s : short_frames s ->
  exists st, f_feed f_init s = Ok (map payload (frames s), st).
Proof.
  intros HS. apply (feed_frames s f_init [] [] FInv_init); auto.
  - rewrite payload_nil. vm_compute; discriminate.
Qed.

(** ** the whole component against the spec *)
Definition msg_ok (m : list Z) : Prop := zlen m <= 78 /\ ~ In 33 m.

Definition CInv (sgn : bool) (s : cstate) (t : sstate) : Prop :=
  FInv (cframe s) (scur t) /\ ~ In 13 (scur t) /\ zlen (payload (scur t)) <= 78 /\
  RWf (mring (cm s)) /\ rcap (mring (cm s)) = 300 /\
  rabs (mring (cm s)) = enc (squeue t) /\ Forall msg_ok (squeue t) /\
  holds sgn (emem (mstore (cm s))) (slog t) /\ Forall (fun m => zlen m <= 80) (slog t) /\
  eptr (mstore (cm s)) = snext t /\ 1 <= snext t /\
  mmode (cm s) = smode t /\ smode t <> HALT.

Lemma space_enc q : space q = zlen (enc q).
Proof.
  induction q as [|m q IH]; [reflexivity|]. cbn [space enc flat_map]. rewrite !zlen_app.
  change (zlen [33]) with 1. unfold enc in IH. lia.
Qed.

Lemma payload_ok cur : Forall (fun c => payload_char c = true) (payload cur).
Proof.
  unfold payload. destruct (existsb is_colon (comment_part cur)); [constructor|].
  unfold clean. apply Forall_forall. intros c H. now apply filter_In in H.
Qed.

Lemma payload_no_mark m : Forall (fun c => payload_char c = true) m -> ~ In 33 m.
Proof. intros H HI. rewrite Forall_forall in H. specialize (H _ HI). discriminate. Qed.

Lemma enqueue_ok r q m : RWf r -> rcap r = 300 -> rabs r = enc q -> Forall msg_ok q -> msg_ok m ->
  exists st r', ring_putBytes r m = Ok (st, r') /\ RWf r' /\ rcap r' = 300 /\
             rabs r' = enc (enqueue q m) /\ Forall msg_ok (enqueue q m).
Proof.
  intros W C A HQ HM. pose proof (zlen_rabs r W) as HL. rewrite A, <- space_enc in HL.
  pose proof (zlen_nonneg m). destruct HM as [HM1 HM2].
  unfold enqueue. destruct (Z.leb_spec (space q + zlen m + 1) 300) as [L|L].
  - destruct (putBytes_ok r m W ltac:(lia)) as (r' & E & V & C' & L' & A').
    exists 1, r'. splits; auto; try lia.
    + rewrite A', A, enc_app. cbn. now rewrite app_nil_r.
    + apply Forall_app; split; auto. repeat constructor; auto.
  - exists 0, r. rewrite putBytes_full by (auto; lia). splits; auto.
Qed.

Lemma log80_append l m : Forall (fun m => zlen m <= 80) l -> zlen m <= 80 ->
  Forall (fun m => zlen m <= 80) (log_append l m).
Proof.
  intros H Hm. unfold log_append. destruct m; auto.
  destruct (used l + zlen (z :: m) + 2 <=? 2048); auto. apply Forall_app; auto.
Qed.

Lemma maxlen_ge sgn : 127 <= maxlen sgn.
Proof. destruct sgn; cbn; lia. Qed.

Lemma command_refines sgn s t : CInv sgn s t ->
  match payload (scur t) with
  | 87 :: (x :: m) => ~ exact_fill (slog t) (x :: m)
  | _ => True
  end ->
  let (t', acts) := spec_command t (payload (scur t)) in
  exists m', m_parseCommand sgn (cm s) (payload (scur t)) = Ok (m', acts) /\
    RWf (mring m') /\ rcap (mring m') = 300 /\
    rabs (mring m') = enc (squeue t') /\ Forall msg_ok (squeue t') /\
    holds sgn (emem (mstore m')) (slog t') /\ Forall (fun m => zlen m <= 80) (slog t') /\
    eptr (mstore m') = snext t' /\ 1 <= snext t' /\
    mmode m' = smode t' /\ smode t' <> HALT.
Proof.
  intros (_ & _ & HL & W & C & A & HQ & HS & H80 & HP & HP1 & HM & HMH) HE.
  pose proof (payload_ok (scur t)) as HPO. set (p := payload (scur t)) in *. clearbody p.
  pose proof (maxlen_ge sgn) as HMX.
  destruct p as [|c rest]. { cbn. eexists; splits; eauto. }
  rewrite zlen_cons in HL. pose proof (zlen_nonneg rest).
  inversion HPO as [|? ? HPc HPr]; subst.
  unfold spec_command, m_parseCommand.
  destruct (Z.eqb_spec c 66) as [E|N66].
  { eexists; splits; eauto. repeat f_equal. unfold m_free, ring_getCapacity, ring_getSize.
    rewrite C, space_enc, <- A, zlen_rabs by auto. reflexivity. }
  destruct (Z.eqb_spec c 69) as [E|N69]. { eexists; splits; eauto. }
  destruct (Z.eqb_spec c 81) as [E|N81].
  { destruct rest as [|x rest'].
    - cbn. destruct (clear_spec _ W) as [V A']. eexists; splits; eauto; cbn; auto; try discriminate.
    - destruct (enqueue_ok _ (squeue t) (x :: rest') W C A HQ) as (st & r' & E1 & V & C' & A' & Q').
      { split; [lia|]. apply payload_no_mark; auto. }
      rewrite E1. cbn [bind]. eexists; splits; eauto; cbn; auto; try discriminate. }
  destruct (Z.eqb_spec c 87) as [E|N87].
  { destruct rest as [|x rest'].
    - destruct (holds_clear sgn (mstore (cm s))) as (st & E1 & H1 & P1); [apply HS|].
      rewrite E1. cbn [bind]. eexists; splits; eauto; cbn; auto; try lia.
    - subst c.
      destruct (append_holds sgn (mstore (cm s)) (slog t) (x :: rest') 0 [] HS) as (st & arr & E1 & H1 & P1); auto; [lia|].
      rewrite E1. cbn [bind]. eexists; splits; eauto; cbn; auto; try lia; try discriminate.
      apply (log80_append (slog t) (x :: rest')); auto. lia. }
  destruct (enqueue_ok _ (squeue t) (c :: rest) W C A HQ) as (st & r' & E1 & V & C' & A' & Q').
  { split; [rewrite zlen_cons; lia|]. apply payload_no_mark; auto. }
  rewrite E1. cbn [bind]. eexists; splits; eauto; cbn; auto; try discriminate.
Qed.

Lemma spec_command_cur t p : scur (fst (spec_command t p)) = scur t.
Proof.
  destruct p as [|c rest]; auto. cbn.
  destruct (c =? 66); auto. destruct (c =? 69); auto.
  destruct (c =? 81); [destruct rest; auto|]. destruct (c =? 87); [destruct rest; auto|]. auto.
Qed.

Lemma poll_refines sgn s t done : CInv sgn s t ->
  let (t', acts) := spec_poll t done in
  exists m', m_process sgn done (cm s) = Ok (m', acts) /\ CInv sgn (mkC (cframe s) m') t' /\ scur t' = scur t.
Proof.
  intros I. pose proof I as (IF & IN & HL & W & C & A & HQ & HS & H80 & HP & HP1 & HM & HMH).
  unfold spec_poll, m_process. rewrite HM.
  assert (HI : CInv sgn (mkC (cframe s) (cm s)) t) by exact I.
  destruct done; cbn [andb].
  2:{ destruct (smode t); try congruence; eexists; splits; eauto. }
  destruct (smode t) eqn:EM; try congruence.
  - (* QUEUE *)
    pose proof (zlen_rabs _ W) as HZ. rewrite A in HZ. unfold ring_getSize.
    destruct (squeue t) as [|m q] eqn:EQ.
    + cbn in HZ. rewrite zlen_nil in HZ. rewrite <- HZ. cbn [Z.ltb Z.compare].
      eexists; splits; eauto.
    + inversion HQ as [|? ? [Hm1 Hm2] HQ']; subst.
      assert (EA : enc (m :: q) = m ++ 33 :: enc q).
      { cbn. rewrite <- app_assoc. reflexivity. }
      rewrite EA in *. rewrite zlen_app, zlen_cons in HZ.
      pose proof (zlen_nonneg m). pose proof (zlen_nonneg (enc q)).
      destruct (Z.ltb_spec 0 (rlen (mring (cm s)))); [|lia].
      destruct (getMessage_ok (mring (cm s)) INPUT_BUFFER_SIZE W) as (r' & E & V & C' & A').
      { rewrite A, before_mark_free by auto. unfold INPUT_BUFFER_SIZE; lia. }
      rewrite A, before_mark_free in E by auto. rewrite A, after_mark_free in A' by auto.
      rewrite E. cbn [bind]. assert (EF : m_free (cm s) = 300 - space (m :: q)); [|rewrite EF; eexists; splits; [reflexivity|unfold CInv; cbn; splits; auto; try lia; try discriminate|reflexivity]].
      unfold m_free, ring_getCapacity, ring_getSize. rewrite C, <- HZ.
      cbn [space]. rewrite space_enc. lia.
  - (* EEPROM *)
    unfold ee_getNextMessage. rewrite (holds_count _ _ _ HS). cbn [bind]. rewrite HP.
    set (i := if zlen (slog t) <=? snext t then 1 else snext t).
    assert (Hi : 1 <= i) by (unfold i; destruct (zlen (slog t) <=? snext t); lia).
    destruct (nth_error (slog t) (Z.to_nat i)) as [m|] eqn:EN.
    + assert (Hm80 : zlen m <= 80).
      { rewrite Forall_forall in H80. apply H80. eapply nth_error_In; eauto. }
      assert (Hm1 : 1 <= zlen m).
      { destruct HS as (_ & HOK & _). unfold log_ok in HOK. rewrite Forall_forall in HOK.
        specialize (HOK m (nth_error_In _ _ EN)). lia. }
      rewrite (holds_get sgn _ (slog t) i m INPUT_BUFFER_SIZE HS EN) by (unfold INPUT_BUFFER_SIZE; lia).
      cbn [bind]. destruct (Z.eqb_spec (zlen m) 0); [lia|].
      eexists; splits; [reflexivity| |reflexivity]. unfold CInv; cbn. splits; auto; try lia; try discriminate.
    + rewrite (holds_get_beyond sgn _ (slog t) i) by (auto; apply nth_error_None in EN; unfold zlen; lia).
      cbn [bind Z.eqb]. eexists; splits; [reflexivity| |reflexivity].
      unfold CInv; cbn. splits; auto; try lia; try discriminate.
  - (* EXECUTE *)
    eexists; splits; eauto.
Qed.

Lemma c_step_refines sgn s t e : CInv sgn s t ->
  match e with
  | CChar c =>
      if c =? 13 then
        match payload (scur t) with
        | 87 :: (x :: m) => ~ exact_fill (slog t) (x :: m)
        | _ => True
        end
      else zlen (payload (scur t ++ [c])) <= 78
  | CPoll _ => True
  end ->
  exists s', c_step sgn s e = Ok (s', snd (spec_step t e)) /\ CInv sgn s' (fst (spec_step t e)).
Proof.
  intros I HE. destruct e as [c|done]; cbn [c_step spec_step].
  - pose proof I as (IF & IN & HL & W & C & A & HQ & HS & H80 & HP & HP1 & HM & HMH).
    destruct (Z.eqb_spec c 13) as [->|Hc].
    + destruct (parseChar_cr _ _ IF HL) as (f' & E & IF'). rewrite E. cbn [bind].
      pose proof (command_refines sgn s t I HE) as HC.
      destruct (spec_command t (payload (scur t))) as [t' acts].
      destruct HC as (m' & E2 & V). rewrite E2. cbn [bind fst snd].
      eexists; split; [reflexivity|]. unfold CInv; cbn. destruct V as (V1 & V2 & V3 & V4 & V5 & V6 & V7 & V8 & V9 & V10).
      splits; auto. vm_compute; discriminate.
    + destruct (parseChar_other _ _ c IF Hc HL HE) as (f' & E & IF'). rewrite E. cbn [bind fst snd].
      eexists; split; [reflexivity|]. unfold CInv; cbn. splits; auto.
      rewrite in_app_iff; cbn. intros [?|[?|[]]]; auto.
  - pose proof (poll_refines sgn s t done I) as HP.
    destruct (spec_poll t done) as [t' acts]. destruct HP as (m' & E & I' & _).
    rewrite E. cbn [bind fst snd]. eauto.
Qed.

Lemma c_run_refines sgn es : forall s t, CInv sgn s t -> host_ok t es ->
  exists s', c_run sgn s es = Ok (fst (spec_run t es), s') /\ CInv sgn s' (snd (spec_run t es)).
Proof.
  induction es as [|e es IH]; intros s t I H; cbn [c_run spec_run host_ok] in *.
  - eauto.
  - destruct H as [HE H].
    destruct (c_step_refines sgn s t e I HE) as (s1 & E1 & I1).
    rewrite E1. cbn [bind].
    destruct (spec_step t e) as [t1 a]. cbn [fst snd] in *.
    destruct (IH s1 t1 I1 H) as (s2 & E2 & I2). rewrite E2. cbn [bind].
    destruct (spec_run t1 es) as [as_ t2]. cbn [fst snd] in *. eauto.
Qed.

Lemma c_boot_inv sgn junk mem l : zlen junk = 300 -> holds sgn mem l -> Forall (fun m => zlen m <= 80) l ->
  exists s, c_boot junk mem = Ok s /\ CInv sgn s (spec_boot l).
Proof.
  intros HJ HS H80. unfold c_boot, m_boot, ee_boot. cbn [emem].
  rewrite (holds_count _ _ _ HS). cbn [bind].
  eexists; split; [reflexivity|]. unfold CInv; cbn. splits; auto; try lia.
  - apply FInv_init.
  - vm_compute; discriminate.
  - apply RWf_new. lia.
  - destruct l as [|m l]; [reflexivity|].
    rewrite zlen_cons. pose proof (zlen_nonneg l). destruct (Z.ltb_spec 0 (zlen l + 1)); auto; lia.
  - destruct l; discriminate.
Qed.

Lemma mcp_refines_spec sgn junk mem l es : zlen junk = 300 -> holds sgn mem l ->
  Forall (fun m => zlen m <= 80) l -> host_ok (spec_boot l) es ->
  exists s s', c_boot junk mem = Ok s /\ c_run sgn s es = Ok (fst (spec_run (spec_boot l) es), s').
Proof.
  intros HJ HS H80 H. destruct (c_boot_inv sgn junk mem l HJ HS H80) as (s & E & I).
  destruct (c_run_refines sgn es s _ I H) as (s' & E2 & _). eauto.
Qed.
