(** * C15-C19, C26, C27: MRCPParser *)
From Verif Require Import Base RingModel RingSpec RingProofs EepromModel EepromSpec EepromProofs
  McpModel McpSpec McpProofs.
Open Scope Z_scope.

(** ** C15 *)
Lemma calls_expected rest : forall s cur, FInv s cur -> ~ In 13 cur -> zlen (payload cur) <= 78 ->
  (forall pre post, rest = pre ++ post ->
     forall d2 c2, cur ++ pre = d2 ++ c2 -> (d2 = [] \/ exists d, d2 = d ++ [13]) -> ~ In 13 c2 ->
     zlen (payload c2) <= 78) ->
  exists s', f_calls s rest = Ok (expected cur rest, s').
Proof.
  induction rest as [|c rest IH]; intros s cur I HN HL HS; cbn [f_calls expected].
  - eexists; reflexivity.
  - destruct (Z.eqb_spec c 13) as [->|Hc].
    + destruct (parseChar_cr s cur I HL) as (s1 & E & I1). rewrite E. cbn [bind].
      destruct (IH s1 [] I1) as (s2 & E2); auto.
      * rewrite payload_nil. vm_compute; discriminate.
      * intros pre post -> d2 c2 Heq Hd2 Hc2. cbn [app] in Heq.
        destruct Hd2 as [->|(d & ->)].
        -- cbn in Heq. apply (HS (13 :: pre) post eq_refl (cur ++ [13]) c2); auto.
           ++ rewrite <- app_assoc. cbn. now subst.
           ++ right. eauto.
        -- apply (HS (13 :: pre) post eq_refl (cur ++ 13 :: d ++ [13]) c2); auto.
           ++ rewrite <- app_assoc. cbn. now subst.
           ++ right. exists (cur ++ 13 :: d). rewrite <- app_assoc. reflexivity.
      * rewrite E2. cbn [bind]. eexists; reflexivity.
    + assert (HN2 : ~ In 13 (cur ++ [c])).
      { rewrite in_app_iff; cbn. intros [?|[?|[]]]; auto. }
      assert (HL2 : zlen (payload (cur ++ [c])) <= 78).
      { apply (HS [c] rest eq_refl [] (cur ++ [c])); auto. }
      destruct (parseChar_other s cur c I Hc HL HL2) as (s1 & E & I1). rewrite E. cbn [bind].
      destruct (IH s1 (cur ++ [c]) I1) as (s2 & E2); auto.
      * intros pre post -> d2 c2 Heq Hd2 Hc2.
        apply (HS (c :: pre) post eq_refl d2 c2); auto.
        rewrite <- Heq, <- !app_assoc. reflexivity.
      * rewrite E2. cbn [bind]. eexists; reflexivity.
Qed.

(** C15, call by call, for every stream of short frames: a byte other than CR dispatches
    nothing, a CR dispatches exactly the payload of the bytes since the previous CR. *)
Theorem C15_each_call : forall s, short_frames s ->
  exists st, f_calls f_init s = Ok (expected [] s, st).
Proof.
  intros s HS. apply calls_expected; auto.
  - apply FInv_init.
  - rewrite payload_nil. vm_compute; discriminate.
Qed.
Print Assumptions C15_each_call.

Lemma app_cr_split fs : forall cur d2 c2, Forall (fun f => ~ In 13 f) fs -> ~ In 13 cur ->
  (exists post, stream fs cur = d2 ++ c2 ++ post) -> (d2 = [] \/ exists d, d2 = d ++ [13]) -> ~ In 13 c2 ->
  exists f q, (In f fs \/ f = cur) /\ f = c2 ++ q.
Proof.
  induction fs as [|f fs IH]; intros cur d2 c2 HF HC [post HE] HD HN.
  - cbn in HE. unfold stream in HE. cbn in HE. exists cur.
    destruct HD as [->|(d & ->)].
    + exists post. auto.
    + exfalso. apply HC. rewrite HE. rewrite !in_app_iff. cbn. auto.
  - inversion HF as [|? ? H1 H2]; subst. unfold stream in HE. cbn [flat_map] in HE.
    destruct HD as [->|(d & ->)].
    + cbn [app] in HE. exists f.
      assert (HQ : exists q, f = c2 ++ q); [|destruct HQ as [q Hq]; exists q; cbn; auto].
      clear - HN HE H1. rewrite <- !app_assoc in HE. cbn [app] in HE. revert f H1 HE.
      induction c2 as [|x c2 IHc]; intros f H1 HE; cbn; [eauto|].
      destruct f as [|y f]; cbn in HE; injection HE as E1 E2.
      * subst. exfalso. apply HN. cbn; auto.
      * subst. destruct (IHc ltac:(intros K; apply HN; cbn; auto) f) as [q ->]; auto.
        { intros K; apply H1; cbn; auto. }
        eauto.
    + (* d2 = d ++ [13]: the first CR of the stream ends f *)
      assert (HQ : exists d', d ++ [13] = f ++ 13 :: d' /\ (d' = [] \/ exists d'', d' = d'' ++ [13]) /\
                     stream fs cur = d' ++ c2 ++ post).
      { clear - HE H1. rewrite <- !app_assoc in HE. cbn [app] in HE. fold (stream fs cur) in HE.
        revert d HE. induction f as [|y f IHf]; intros d HE.
        - cbn in HE. destruct d as [|z d]; cbn in HE.
          + injection HE as E2. exists []. cbn. auto.
          + injection HE as E1 E2. subst. exists (d ++ [13]). cbn. splits; auto. right; eauto. rewrite <- !app_assoc. auto.
        - cbn in HE. destruct d as [|z d]; cbn in HE; injection HE as E1 E2.
          + exfalso. subst. apply H1. cbn; auto.
          + subst. destruct (IHf ltac:(intros K; apply H1; cbn; auto) d E2) as (d' & A & B & C).
            exists d'. cbn. rewrite A. auto. }
      destruct HQ as (d' & A & B & C).
      destruct (IH cur d' c2 H2 HC (ex_intro _ post C) B HN) as (g & q & [G|G] & E).
      * exists g, q. cbn. auto.
      * exists g, q. auto.
Qed.

Lemma stream_short fs cur : Forall short_frame fs -> short_frame cur -> short_frames (stream fs cur).
Proof.
  intros HF HC pre post HE d2 c2 -> HD HN.
  destruct (app_cr_split fs cur d2 c2) as (f & q & HI & HQ); auto.
  - eapply Forall_impl; [|exact HF]. intros f [H _]; exact H.
  - apply HC.
  - exists post. rewrite HE. now rewrite <- app_assoc.
  - assert (short_frame f) as [_ HS].
    { destruct HI as [HI| ->]; auto. rewrite Forall_forall in HF. auto. }
    apply (HS c2 q HQ).
Qed.

Lemma frames_stream fs cur : Forall (fun f => ~ In 13 f) fs -> ~ In 13 cur -> frames (stream fs cur) = fs.
Proof.
  intros HF HC. induction HF as [|f fs H HF IH]; unfold stream in *; cbn [flat_map app].
  - now apply frames_no_cr.
  - rewrite <- !app_assoc. cbn [app]. rewrite frames_snoc_frame by auto. now f_equal.
Qed.

(** C15, frame by frame: the frames of a stream whose comments contain no ':' are
    delivered cleaned, in order, one command each. *)
Theorem C15_frames_are_delivered_clean : forall fs cur,
  Forall short_frame fs -> short_frame cur ->
  Forall (fun f => existsb is_colon (comment_part f) = false) fs ->
  exists st, f_feed f_init (stream fs cur) = Ok (map clean fs, st).
Proof.
  intros fs cur HF HC HK.
  destruct (feed_spec _ (stream_short fs cur HF HC)) as (st & E). exists st. rewrite E.
  rewrite frames_stream; [| |apply HC].
  2:{ eapply Forall_impl; [|exact HF]. intros f [H _]; exact H. }
  f_equal. f_equal. clear - HK. induction HK as [|f fs H HK IH]; cbn; auto.
  rewrite IH. f_equal. unfold payload. now rewrite H.
Qed.
Print Assumptions C15_frames_are_delivered_clean.

(** "x:m1 x-2.5 \240#hi\r" delivers M1X-2.5 *)
Example C15_demo :
  f_feed f_init [120; 58; 109; 49; 32; 120; 45; 50; 46; 53; 240; 35; 104; 105; 13; 81; 13; 65]
  = Ok ([[77; 49; 88; 45; 50; 46; 53]; [81]], mkF true [65] false false).
Proof. vm_compute. reflexivity. Qed.
Lemma zlen_filter (p : Z -> bool) l : zlen (filter p l) <= zlen l.
Proof. induction l as [|x l IH]; cbn; [lia|]. destruct (p x); rewrite ?zlen_cons; lia. Qed.
Lemma zlen_payload f : zlen (payload f) <= zlen f.
Proof.
  unfold payload. destruct (existsb is_colon (comment_part f)). { apply zlen_nonneg. }
  unfold clean. eapply Z.le_trans; [apply zlen_filter|].
  assert (M : forall l, zlen (map upper l) = zlen l) by (intros; unfold zlen; now rewrite map_length).
  rewrite M.
  assert (A : forall l, zlen (after_colon l) <= zlen l).
  { induction l as [|x l IH]; [cbn; lia|]. cbn [after_colon].
    destruct (existsb is_colon l); [|destruct (is_colon x)]; rewrite ?zlen_cons in *; lia. }
  eapply Z.le_trans; [apply A|].
  induction f as [|x f IH]; [cbn; lia|]. cbn [code_part].
  pose proof (zlen_nonneg f). destruct (is_comment x); rewrite ?zlen_cons; [unfold zlen; cbn; lia|lia].
Qed.
Lemma short_frame_small f : ~ In 13 f -> zlen f <= 78 -> short_frame f.
Proof.
  intros H HL. split; auto. intros p q ->. rewrite zlen_app in HL. pose proof (zlen_nonneg q).
  pose proof (zlen_payload p). lia.
Qed.

Example C15_demo_hyps :
  let f := [120; 58; 109; 49; 32; 120; 45; 50; 46; 53; 240; 35; 104; 105] in
  short_frame f /\ existsb is_colon (comment_part f) = false.
Proof.
  split; [apply short_frame_small; [cbn; lia|vm_compute; discriminate]|reflexivity].
Qed.

(** ** C16 *)
Lemma feed_app s a : forall b, f_feed s (a ++ b) =
  do (x, s1) <- f_feed s a; do (y, s2) <- f_feed s1 b; Ok (x ++ y, s2).
Proof.
  revert s. induction a as [|c a IH]; intros s b; cbn [app f_feed bind].
  - destruct (f_feed s b) as [[y s2]|]; reflexivity.
  - destruct (f_parseChar s c) as [[s1 d]|]; cbn [bind]; auto.
    rewrite IH. destruct (f_feed s1 a) as [[x s2]|]; cbn [bind]; auto.
    destruct (f_feed s2 b) as [[y s3]|]; cbn [bind]; auto.
    destruct d; reflexivity.
Qed.

Lemma comment_part_intro f k txt : existsb is_comment f = false -> is_comment k = true ->
  comment_part (f ++ k :: txt) = k :: txt.
Proof.
  induction f as [|x f IH]; cbn [app comment_part existsb].
  - intros _ ->. reflexivity.
  - intros H Hk. apply orb_false_iff in H as [-> H]. auto.
Qed.
Lemma code_part_intro f k txt : existsb is_comment f = false -> is_comment k = true ->
  code_part (f ++ k :: txt) = f.
Proof.
  induction f as [|x f IH]; cbn [app code_part existsb].
  - intros _ ->. reflexivity.
  - intros H Hk. apply orb_false_iff in H as [-> H]. f_equal. auto.
Qed.

(** C16, the part that holds: after any short frames, a comment without ':' (and CR)
    changes neither the command nor anything later. *)
Theorem C16_comment_is_ignored_partial : forall fs f k txt later,
  Forall short_frame fs -> short_frame f -> Forall short_frame later ->
  existsb is_comment f = false -> is_comment k = true ->
  ~ In 13 txt -> ~ In 58 txt ->
  exists st ds,
    f_feed f_init (stream (fs ++ [f] ++ later) []) = Ok (ds, st) /\
    exists st', f_feed f_init (stream (fs ++ [f ++ k :: txt] ++ later) []) = Ok (ds, st').
Proof.
  intros fs f k txt later HF Hf HL HC HK HT1 HT2.
  assert (K13 : k <> 13) by (intros ->; discriminate).
  assert (K58 : is_colon k = false).
  { unfold is_colon. destruct (Z.eqb_spec k 58); subst; [discriminate|reflexivity]. }
  assert (NC : existsb is_colon txt = false).
  { apply Bool.not_true_is_false. intros E. apply existsb_exists in E as (x & I & E).
    unfold is_colon in E. apply Z.eqb_eq in E. subst. auto. }
  assert (HP : forall t, existsb is_colon t = false -> payload (f ++ k :: t) = payload f).
  { intros t Ht. unfold payload, clean.
    rewrite comment_part_intro, code_part_intro by auto. cbn [existsb]. rewrite K58, Ht. cbn [orb].
    now rewrite (comment_part_none f), (code_part_none f) by auto. }
  assert (S2 : short_frame (f ++ k :: txt)).
  { split.
    - destruct Hf as [Hf _]. rewrite in_app_iff; cbn. intros [?|[?|?]]; auto.
    - intros p q E. destruct Hf as [_ Hf].
      assert (HA : (exists q', f = p ++ q') \/ exists t t', p = f ++ k :: t /\ txt = t ++ t').
      { clear - E. revert p E. induction f as [|x f IH]; intros p E.
        - destruct p as [|y p]; [left; exists []; reflexivity|]. cbn in E. injection E as -> ->.
          right. exists p, q. auto.
        - destruct p as [|y p]; [left; eexists; reflexivity|]. cbn in E. injection E as -> E.
          destruct (IH p E) as [(q' & ->)|(t & t' & -> & ->)]; [left; eexists; reflexivity|].
          right. exists t, t'. auto. }
      destruct HA as [(q' & HA)|(t & t' & -> & ->)]; [eapply Hf; eauto|].
      rewrite HP. { apply (Hf f []). now rewrite app_nil_r. }
      rewrite existsb_app in NC. now apply orb_false_iff in NC as [NC _]. }
  assert (S0 : short_frame []). { apply short_frame_small; [cbn; auto|vm_compute; discriminate]. }
  assert (E1 : forall g, short_frame g -> Forall short_frame (fs ++ [g] ++ later)).
  { intros g Hg. apply Forall_app; split; auto. apply Forall_app; split; auto. }
  assert (NCR : forall l, Forall short_frame l -> Forall (fun f => ~ In 13 f) l).
  { intros l H. eapply Forall_impl; [|exact H]. intros g [G _]; exact G. }
  destruct (feed_spec _ (stream_short _ [] (E1 f Hf) S0)) as (st & F1).
  destruct (feed_spec _ (stream_short _ [] (E1 _ S2) S0)) as (st' & F2).
  rewrite frames_stream in F1 by (auto; apply NCR; auto).
  rewrite frames_stream in F2 by (auto; apply NCR; auto).
  rewrite !map_app in *. cbn [map] in *. rewrite HP in F2 by auto. eauto.
Qed.
Print Assumptions C16_comment_is_ignored_partial.

(** ... and the part that does not: whatever the command [f], a ':' in its comment makes
    the code dispatch the empty command instead. *)
Theorem C16_comment_with_colon_refuted : forall f k a b,
  zlen (f ++ k :: a ++ 58 :: b) <= 78 -> ~ In 13 (f ++ k :: a ++ 58 :: b) ->
  existsb is_comment f = false -> is_comment k = true ->
  exists st st', f_feed f_init (f ++ [13]) = Ok ([clean f], st) /\
             f_feed f_init ((f ++ k :: a ++ 58 :: b) ++ [13]) = Ok ([[]], st').
Proof.
  intros f k a b HL HN HC HK.
  assert (S0 : short_frame []). { apply short_frame_small; [cbn; auto|vm_compute; discriminate]. }
  assert (S1 : short_frame (f ++ k :: a ++ 58 :: b)) by (now apply short_frame_small).
  assert (S2 : short_frame f).
  { apply short_frame_small; [intros K; apply HN; apply in_or_app; auto|].
    rewrite zlen_app in HL. pose proof (zlen_nonneg (k :: a ++ 58 :: b)). lia. }
  destruct (feed_spec _ (stream_short [f] [] (Forall_cons _ S2 (Forall_nil _)) S0)) as (st & F1).
  destruct (feed_spec _ (stream_short [_] [] (Forall_cons _ S1 (Forall_nil _)) S0)) as (st' & F2).
  rewrite frames_stream in F1 by (auto; repeat constructor; apply S2).
  rewrite frames_stream in F2 by (auto; repeat constructor; apply S1).
  unfold stream in *. cbn [flat_map map] in *. rewrite !app_nil_r in *.
  exists st, st'. split.
  - rewrite F1. unfold payload. now rewrite (comment_part_none f).
  - rewrite F2. unfold payload. rewrite comment_part_intro by auto. cbn [existsb].
    rewrite existsb_app. cbn [existsb is_colon Z.eqb Pos.eqb orb]. rewrite !orb_true_r. reflexivity.
Qed.
Print Assumptions C16_comment_with_colon_refuted.

(** "X1#t:y\r" *)
Example C16_demo : f_feed f_init [88; 49; 13; 88; 49; 35; 116; 58; 121; 13; 88; 49; 40; 116; 13]
  = Ok ([[88; 49]; []; [88; 49]], mkF false [88; 49] false false).
Proof. vm_compute. reflexivity. Qed.

(** ** C17 *)

(** like FInv, without the fullness flag *)
Definition FInv0 (s : fstate) (cur : list Z) : Prop :=
  fcomment s = existsb is_comment cur /\
  (cur = [] -> fstarted s = false) /\
  (cur <> [] -> fstarted s = true /\ fbuf s = payload cur).

Lemma parseChar_any s cur c : FInv0 s cur -> c <> 13 ->
  if 80 <? zlen (payload (cur ++ [c])) then zlen (payload cur) <= 80 -> f_parseChar s c = Ub OobWrite
  else exists s', f_parseChar s c = Ok (s', None) /\ FInv0 s' (cur ++ [c]).
Proof.
  intros (I2 & I3 & I4) Hc.
  assert (Hne : cur ++ [c] <> []) by (destruct cur; discriminate).
  unfold f_parseChar. rewrite upper_toUpper. rewrite !(upper_eqb c) by lia.
  destruct (Z.eqb_spec c 13); [congruence|].
  set (s1 := if negb (fstarted s) || (c =? 58) then mkF true [] (ffull s) (fcomment s) else s).
  assert (Hs1 : fstarted s1 = true /\ fcomment s1 = existsb is_comment cur /\
                fbuf s1 = if c =? 58 then [] else payload cur).
  { unfold s1. destruct cur as [|x cur].
    - rewrite I3 by auto. cbn [negb orb]. cbn. splits; auto. now destruct (c =? 58).
    - destruct I4 as [J1 J2]; [discriminate|]. rewrite J1. cbn [negb orb].
      destruct (c =? 58); cbn; splits; auto. }
  clearbody s1. destruct Hs1 as (S1 & S3 & S4).
  assert (HC : (c =? 35) || (c =? 40) = is_comment c) by reflexivity. rewrite HC. clear HC.
  destruct (existsb is_comment cur) eqn:EC.
  - rewrite S3, orb_true_r, payload_snoc_comment by auto.
    destruct (Z.ltb_spec 80 (zlen (if is_colon c then [] else payload cur))) as [L|L].
    + intros K. destruct (is_colon c); [unfold zlen in L; cbn in L; lia|lia].
    + eexists; split; [reflexivity|].
      unfold FInv0; cbn. rewrite existsb_app, EC. splits; auto.
      * intros E. now destruct (Hne E).
      * intros _. split; auto. rewrite S4, payload_snoc_comment by auto. unfold is_colon. reflexivity.
  - rewrite S3, orb_false_r.
    destruct (is_comment c) eqn:EK.
    + rewrite payload_snoc_open by auto.
      destruct (Z.ltb_spec 80 (zlen (payload cur))) as [L|L]; [lia|].
      eexists; split; [reflexivity|].
      unfold FInv0; cbn. rewrite existsb_app, EC. cbn [existsb]. rewrite EK. splits; auto.
      * intros E. now destruct (Hne E).
      * intros _. split; auto. rewrite S4, payload_snoc_open by auto.
        destruct (Z.eqb_spec c 58); auto. subst. discriminate.
    + assert (HF : existsb is_comment (cur ++ [c]) = false).
      { rewrite existsb_app, EC. cbn [existsb]. now rewrite EK. }
      destruct (Z.eqb_spec c 58) as [E58|N58].
      * rewrite payload_snoc_colon by (auto; subst; reflexivity).
        change (80 <? zlen (@nil Z)) with false. cbv iota.
        eexists; split; [reflexivity|]. unfold FInv0. rewrite HF. splits; auto.
        -- intros E. now destruct (Hne E).
        -- intros _. split; auto. rewrite S4, payload_snoc_colon by (auto; subst; reflexivity). reflexivity.
      * assert (HNC : is_colon c = false) by (unfold is_colon; now apply Z.eqb_neq).
        rewrite accepts_payload. rewrite payload_snoc_plain by auto. rewrite S4.
        destruct (payload_char (upper c)) eqn:EP.
        -- rewrite zlen_app. change (zlen [upper c]) with 1. unfold INPUT_BUFFER_SIZE.
           destruct (Z.ltb_spec 80 (zlen (payload cur) + 1)) as [L|L].
           ++ intros K. destruct (Z.ltb_spec (zlen (payload cur)) 80); [lia|reflexivity].
           ++ destruct (Z.ltb_spec (zlen (payload cur)) 80); [|lia].
              eexists; split; [reflexivity|]. unfold FInv0; cbn. rewrite HF. splits; auto.
              ** intros E. now destruct (Hne E).
              ** intros _. split; auto. rewrite payload_snoc_plain by auto. now rewrite EP.
        -- rewrite app_nil_r. destruct (Z.ltb_spec 80 (zlen (payload cur))) as [L|L]; [lia|].
           eexists; split; [reflexivity|]. unfold FInv0. rewrite HF. splits; auto.
           ++ intros E. now destruct (Hne E).
           ++ intros _. split; auto. rewrite S4, payload_snoc_plain by auto. rewrite EP, app_nil_r. reflexivity.
Qed.

Lemma parseChar_cr_any s cur : FInv0 s cur ->
  if 78 <? zlen (payload cur) then f_parseChar s 13 = Ub OobWrite
  else exists s' d, f_parseChar s 13 = Ok (s', d) /\ FInv0 s' [].
Proof.
  intros (I2 & I3 & I4).
  unfold f_parseChar. change (toUpper 13) with 13. cbn [Z.eqb Pos.eqb]. rewrite orb_false_r.
  set (s1 := if negb (fstarted s) then mkF true [] (ffull s) (fcomment s) else s).
  assert (Hs1 : fbuf s1 = payload cur).
  { unfold s1. destruct cur as [|x cur].
    - rewrite I3 by auto. cbn. auto.
    - destruct I4 as [J1 J2]; [discriminate|]. rewrite J1. cbn. auto. }
  clearbody s1. rewrite Hs1. unfold INPUT_BUFFER_SIZE.
  destruct (Z.ltb_spec 78 (zlen (payload cur))), (Z.ltb_spec (zlen (payload cur) + 1) 80); try lia; auto.
  do 2 eexists; split; [reflexivity|]. unfold FInv0; cbn. splits; auto. congruence.
Qed.

(** [fits] with the bytes [cur] of the current frame already received *)
Definition fits_from (cur rest : list Z) : Prop :=
  forall pre c2 post, cur ++ rest = pre ++ c2 ++ post -> (pre = [] \/ exists d, pre = d ++ [13]) ->
  ~ In 13 c2 ->
  zlen (payload c2) <= 80 /\ ((exists r, post = 13 :: r) -> zlen (payload c2) <= 78).

Lemma fits_from_cr cur rest : fits_from cur (13 :: rest) -> fits_from [] rest.
Proof.
  intros H pre c2 post E HP HN. cbn in E.
  destruct HP as [->|(d & ->)].
  - apply (H (cur ++ [13]) c2 post); auto.
    + rewrite E, <- app_assoc. reflexivity.
    + right; eauto.
  - apply (H (cur ++ 13 :: d ++ [13]) c2 post); auto.
    + rewrite E, <- !app_assoc. cbn. rewrite <- !app_assoc. reflexivity.
    + right. exists (cur ++ 13 :: d). now rewrite <- app_assoc.
Qed.

(** split a position of [cur ++ 13 :: rest] *)
Lemma cut_cr cur rest pre c2 post : ~ In 13 cur -> ~ In 13 c2 ->
  cur ++ 13 :: rest = pre ++ c2 ++ post -> (pre = [] \/ exists d, pre = d ++ [13]) ->
  (pre = [] /\ exists q, cur = c2 ++ q /\ q ++ 13 :: rest = post) \/
  (exists pre', pre = cur ++ 13 :: pre' /\ rest = pre' ++ c2 ++ post /\ (pre' = [] \/ exists d, pre' = d ++ [13])).
Proof.
  intros H1 HN HE [->|(d & ->)].
  - left. split; auto. cbn in HE. revert cur H1 HE.
    induction c2 as [|x c2 IHc]; intros cur H1 HE; cbn; [eauto|].
    destruct cur as [|y cur]; cbn in HE; injection HE as E1 E2.
    * subst. exfalso. apply HN. cbn; auto.
    * subst. destruct (IHc ltac:(intros K; apply HN; cbn; auto) cur) as (q & -> & Q); auto.
      { intros K; apply H1; cbn; auto. }
      eauto.
  - right. rewrite <- !app_assoc in HE. cbn [app] in HE.
    revert d HE. induction cur as [|y f IHf]; intros d HE.
    + cbn in HE. destruct d as [|z d]; cbn in HE.
      * injection HE as E2. exists []. cbn. auto.
      * injection HE as E1 E2. subst. exists (d ++ [13]). cbn. splits; auto. now rewrite <- !app_assoc. right; eauto.
    + cbn in HE. destruct d as [|z d]; cbn in HE; injection HE as E1 E2.
      * exfalso. subst. apply H1. cbn; auto.
      * subst. destruct (IHf ltac:(intros K; apply H1; cbn; auto) d E2) as (d' & A & B & C).
        exists d'. cbn. rewrite A. auto.
Qed.

Lemma fits_from_cr_iff cur rest : ~ In 13 cur -> 
  (forall p q, cur = p ++ q -> zlen (payload p) <= 80) ->
  zlen (payload cur) <= 78 -> fits_from [] rest -> fits_from cur (13 :: rest).
Proof.
  intros HN HP HL H pre c2 post E HD HN2.
  destruct (cut_cr cur rest pre c2 post HN HN2 E HD) as [(-> & q & -> & Q)|(pre' & -> & E' & HD')].
  - split; [eapply HP; eauto|]. intros (r & ->). destruct q as [|x q].
    + now rewrite app_nil_r in HL.
    + cbn in Q. injection Q as -> Q. exfalso. apply HN. apply in_or_app. right. cbn. auto.
  - apply (H pre' c2 post E' HD' HN2).
Qed.

Lemma feed_safe_iff rest : forall s cur, FInv0 s cur -> ~ In 13 cur ->
  (forall p q, cur = p ++ q -> zlen (payload p) <= 80) ->
  (fits_from cur rest -> exists r, f_feed s rest = Ok r) /\
  (~ fits_from cur rest -> f_feed s rest = Ub OobWrite).
Proof.
  induction rest as [|c rest IH]; intros s cur I HN HP; cbn [f_feed].
  - split; eauto. intros H. exfalso. apply H. intros pre c2 post E HD HN2. rewrite app_nil_r in E.
    destruct HD as [->|(d & ->)].
    + split; [eapply HP; exact E|]. intros (r & ->). exfalso. apply HN. rewrite E. cbn.
      apply in_or_app. right. cbn. auto.
    + exfalso. apply HN. rewrite E. rewrite !in_app_iff. cbn. auto.
  - destruct (Z.eq_dec c 13) as [->|Hc].
    + pose proof (parseChar_cr_any s cur I) as HC.
      destruct (Z.ltb_spec 78 (zlen (payload cur))) as [L|L].
      * rewrite HC. cbn [bind]. split; auto. intros H. exfalso.
        destruct (H [] cur (13 :: rest)) as [_ H2]; auto. specialize (H2 (ex_intro _ rest eq_refl)). lia.
      * destruct HC as (s1 & d & E & I1). rewrite E. cbn [bind].
        destruct (IH s1 [] I1) as [A B]; auto.
        { intros p q HE. symmetry in HE. apply app_eq_nil in HE as [-> _]. vm_compute; discriminate. }
        split.
        -- intros H. destruct (A (fits_from_cr _ _ H)) as ([ds s2] & E2). rewrite E2. cbn. eauto.
        -- intros H. rewrite B; auto. intros K. apply H. apply fits_from_cr_iff; auto.
    + pose proof (parseChar_any s cur c I Hc) as HC.
      assert (HN2 : ~ In 13 (cur ++ [c])).
      { rewrite in_app_iff; cbn. intros [?|[?|[]]]; auto. }
      assert (HF : fits_from cur (c :: rest) <-> fits_from (cur ++ [c]) rest).
      { unfold fits_from. rewrite <- app_assoc. cbn [app]. tauto. }
      destruct (Z.ltb_spec 80 (zlen (payload (cur ++ [c])))) as [L|L].
      * rewrite HC. 2:{ apply (HP cur []). now rewrite app_nil_r. } cbn [bind]. split; auto.
        intros H. exfalso. destruct (H [] (cur ++ [c]) rest) as [H2 _]; auto.
        { cbn. now rewrite <- app_assoc. } lia.
      * destruct HC as (s1 & E & I1). rewrite E. cbn [bind].
        destruct (IH s1 (cur ++ [c]) I1) as [A B]; auto.
        { intros p q HE. destruct q as [|y q].
          - rewrite app_nil_r in HE. now subst.
          - destruct (exists_last (l := y :: q)) as (q' & z & Hq); [discriminate|].
            rewrite Hq, app_assoc in HE. apply app_inj_tail in HE as [HE _]. eapply HP; eauto. }
        split.
        -- intros H. apply HF in H. destruct (A H) as ([ds s2] & E2). rewrite E2. cbn. eauto.
        -- intros H. rewrite B; auto. intros K. apply H. now apply HF.
Qed.

Lemma FInv0_init : FInv0 f_init [].
Proof. unfold FInv0; cbn. splits; auto. Qed.

(** C17, exactly: the stream is received without touching memory outside the buffer
    if and only if it [fits]; otherwise the fault is a write outside the 80 bytes. *)
Theorem C17_receive_safe_iff_partial : forall s,
  (fits s -> exists r, f_feed f_init s = Ok r) /\
  (~ fits s -> f_feed f_init s = Ub OobWrite).
Proof.
  intros s. apply (feed_safe_iff s f_init []); auto using FInv0_init.
  intros p q HE. symmetry in HE. apply app_eq_nil in HE as [-> _]. vm_compute; discriminate.
Qed.
Print Assumptions C17_receive_safe_iff_partial.

(** every frame of 79 or more payload characters overruns the buffer *)
Theorem C17_long_frame_refuted : forall f,
  ~ In 13 f -> 79 <= zlen (payload f) -> f_feed f_init (f ++ [13]) = Ub OobWrite.
Proof.
  intros f HN HL. apply (proj2 (C17_receive_safe_iff_partial (f ++ [13]))).
  intros H. destruct (H [] f [13]) as [_ H2]; auto. specialize (H2 (ex_intro _ [] eq_refl)). lia.
Qed.
Print Assumptions C17_long_frame_refuted.

Example C17_demo : 79 <= zlen (payload (repeat 88 79)) /\
  f_feed f_init (repeat 88 79 ++ [13]) = Ub OobWrite /\
  exists r, f_feed f_init (repeat 88 78 ++ [13]) = Ok r.
Proof.
  split; [vm_compute; discriminate|]. split; [vm_compute; reflexivity|].
  eexists. vm_compute. reflexivity.
Qed.

(** ** C18 *)
Lemma parseChar_case s a b : upper a = upper b -> f_parseChar s a = f_parseChar s b.
Proof. intros H. unfold f_parseChar. rewrite !upper_toUpper, H. reflexivity. Qed.

Theorem C18_case_insensitive : forall s a b, same_letters a b -> f_feed s a = f_feed s b.
Proof.
  intros s a. revert s. induction a as [|x a IH]; intros s [|y b] H; try discriminate; auto.
  injection H as H1 H2. cbn [f_feed]. rewrite (parseChar_case s x y H1).
  destruct (f_parseChar s y) as [[s1 d]|]; cbn [bind]; auto. rewrite (IH s1 b H2). reflexivity.
Qed.
Print Assumptions C18_case_insensitive.

(** ... and for the whole component, polls included *)
Theorem C18_case_insensitive_component : forall sgn s a b, Forall2 same_event a b ->
  c_run sgn s a = c_run sgn s b.
Proof.
  intros sgn s a b H. revert s. induction H as [|x y a b H1 H IH]; intros s; cbn [c_run]; auto.
  assert (E : c_step sgn s x = c_step sgn s y).
  { destruct x, y; cbn in H1; try tauto; subst; auto. cbn [c_step]. now rewrite (parseChar_case _ _ _ H1). }
  rewrite E. destruct (c_step sgn s y) as [[s1 ac]|]; cbn [bind]; auto. now rewrite IH.
Qed.
Print Assumptions C18_case_insensitive_component.

Example C18_demo : same_letters [113; 120; 49; 13] [81; 88; 49; 13] /\
  f_feed f_init [113; 120; 49; 13] = Ok ([[81; 88; 49]], mkF false [81; 88; 49] false false).
Proof. split; vm_compute; reflexivity. Qed.

(** ** C19 *)

(** the parser state holds the instruction queue [q], the stored program [l], the next
    program line [n] and the mode [md] *)
Definition MRep (sgn : bool) (s : mstate) (q : list (list Z)) (l : log) (n : Z) (md : mode) : Prop :=
  RWf (mring s) /\ rcap (mring s) = 300 /\ rabs (mring s) = enc q /\ Forall msg_ok q /\
  holds sgn (emem (mstore s)) l /\ eptr (mstore s) = n /\ mmode s = md.

Definition ordinary (c : Z) : Prop := c <> 66 /\ c <> 69 /\ c <> 81 /\ c <> 87.

Theorem C19_dispatch : forall sgn s q l n md,
  MRep sgn s q l n md ->
  let does t acts q' l' n' md' :=
    exists s', m_parseCommand sgn s t = Ok (s', acts) /\ MRep sgn s' q' l' n' md' in
  (* empty: nothing *)
  does [] [] q l n md /\
  (* B...: report the free space, nothing else *)
  (forall x, does (66 :: x) [MSendFree (300 - space q)] q l n md) /\
  (* E<mril>: execute <mril> now, nothing else *)
  (forall x, does (69 :: x) [MParse x] q l n md) /\
  (* Q: erase the queue *)
  does [81] [] [] l n QUEUE /\
  (* Q<mril>: append if it fits *)
  (forall x, x <> [] -> msg_ok x -> space q + zlen x + 1 <= 300 -> does (81 :: x) [] (q ++ [x]) l n QUEUE) /\
  (forall x, x <> [] -> msg_ok x -> 300 < space q + zlen x + 1 -> does (81 :: x) [] q l n QUEUE) /\
  (* W: erase the program *)
  does [87] [] q [] 1 md /\
  (* W<mril>: append to the program if it fits *)
  (forall x, x <> [] -> zlen x <= maxlen sgn -> used l + zlen x + 2 <= 2048 ->
     does (87 :: x) [] q (l ++ [x]) n EEPROM) /\
  (forall x, x <> [] -> zlen x <= maxlen sgn -> 2048 < used l + zlen x + 1 ->
     does (87 :: x) [] q l n EEPROM) /\
  (* anything else: append to the queue if it fits *)
  (forall c x, ordinary c -> msg_ok (c :: x) -> space q + zlen (c :: x) + 1 <= 300 ->
     does (c :: x) [] (q ++ [c :: x]) l n QUEUE) /\
  (forall c x, ordinary c -> msg_ok (c :: x) -> 300 < space q + zlen (c :: x) + 1 ->
     does (c :: x) [] q l n QUEUE).
Proof.
  intros sgn s q l n md (W & C & A & HQ & HS & HP & HM) does. subst does. cbv beta.
  assert (K : MRep sgn s q l n md) by (unfold MRep; splits; auto).
  assert (ENQ : forall x, msg_ok x -> exists st r', ring_putBytes (mring s) x = Ok (st, r') /\
                 RWf r' /\ rcap r' = 300 /\ rabs r' = enc (enqueue q x) /\ Forall msg_ok (enqueue q x)).
  { intros x Hx. apply enqueue_ok; auto. }
  assert (E1 : forall x, space q + zlen x + 1 <= 300 -> enqueue q x = q ++ [x]).
  { intros x Hx. unfold enqueue. destruct (Z.leb_spec (space q + zlen x + 1) 300); auto; lia. }
  assert (E2 : forall x, 300 < space q + zlen x + 1 -> enqueue q x = q).
  { intros x Hx. unfold enqueue. destruct (Z.leb_spec (space q + zlen x + 1) 300); auto; lia. }
  splits.
  - cbn. eauto.
  - intros x. cbn. eexists; split; [|exact K].
    unfold m_free, ring_getCapacity, ring_getSize. rewrite C, space_enc, <- A, zlen_rabs by auto. reflexivity.
  - intros x. cbn. eauto.
  - cbn. destruct (clear_spec _ W) as [V A']. eexists; split; [reflexivity|]. unfold MRep; cbn; splits; auto.
  - intros x Hx Hm Hf. destruct (ENQ x Hm) as (st & r' & E & V & C' & A' & F). rewrite E1 in * by auto.
    destruct x as [|x0 x]; [congruence|]. cbn [m_parseCommand Z.eqb Pos.eqb]. rewrite E. cbn [bind].
    eexists; split; [reflexivity|]. unfold MRep; cbn [mring mstore mmode]; splits; auto.
  - intros x Hx Hm Hf. destruct (ENQ x Hm) as (st & r' & E & V & C' & A' & F). rewrite E2 in * by auto.
    destruct x as [|x0 x]; [congruence|]. cbn [m_parseCommand Z.eqb Pos.eqb]. rewrite E. cbn [bind].
    eexists; split; [reflexivity|]. unfold MRep; cbn [mring mstore mmode]; splits; auto.
  - destruct (holds_clear sgn (mstore s)) as (st & E & H1 & P1); [apply HS|].
    cbn [m_parseCommand Z.eqb Pos.eqb]. rewrite E. cbn [bind].
    eexists; split; [reflexivity|]. unfold MRep; cbn [mring mstore mmode]; splits; auto.
  - intros x Hx Hl Hf.
    destruct (append_holds sgn (mstore s) l x 0 [] HS Hl) as (st & arr & E & H1 & P1); [unfold exact_fill; lia|].
    destruct x as [|x0 x]; [congruence|]. cbn [m_parseCommand Z.eqb Pos.eqb]. rewrite E. cbn [bind].
    eexists; split; [reflexivity|]. unfold MRep; cbn [mring mstore mmode]; splits; auto; try congruence.
    unfold log_append in H1. destruct (Z.leb_spec (used l + zlen (x0 :: x) + 2) 2048); auto; lia.
  - intros x Hx Hl Hf.
    destruct (append_holds sgn (mstore s) l x 0 [] HS Hl) as (st & arr & E & H1 & P1); [unfold exact_fill; lia|].
    destruct x as [|x0 x]; [congruence|]. cbn [m_parseCommand Z.eqb Pos.eqb]. rewrite E. cbn [bind].
    eexists; split; [reflexivity|]. unfold MRep; cbn [mring mstore mmode]; splits; auto; try congruence.
    unfold log_append in H1. destruct (Z.leb_spec (used l + zlen (x0 :: x) + 2) 2048); auto; lia.
  - intros c x (N1 & N2 & N3 & N4) Hm Hf. destruct (ENQ _ Hm) as (st & r' & E & V & C' & A' & F). rewrite E1 in * by auto.
    unfold m_parseCommand. apply Z.eqb_neq in N1, N2, N3, N4. rewrite N1, N2, N3, N4, E. cbn [bind].
    eexists; split; [reflexivity|]. unfold MRep; cbn [mring mstore mmode]; splits; auto.
  - intros c x (N1 & N2 & N3 & N4) Hm Hf. destruct (ENQ _ Hm) as (st & r' & E & V & C' & A' & F). rewrite E2 in * by auto.
    unfold m_parseCommand. apply Z.eqb_neq in N1, N2, N3, N4. rewrite N1, N2, N3, N4, E. cbn [bind].
    eexists; split; [reflexivity|]. unfold MRep; cbn [mring mstore mmode]; splits; auto.
Qed.
Print Assumptions C19_dispatch.

(** the start-up state meets the hypothesis *)
Theorem C19_boot_state : forall sgn junk mem l, zlen junk = 300 -> holds sgn mem l ->
  exists s, m_boot (ring_new junk) (ee_boot mem) = Ok s /\
            MRep sgn s [] l 1 (match l with [] => EXECUTE | _ => EEPROM end).
Proof.
  intros sgn junk mem l HJ HS. unfold m_boot, ee_boot. cbn [emem]. rewrite (holds_count _ _ _ HS). cbn [bind].
  eexists; split; [reflexivity|]. unfold MRep; cbn. splits; auto; try (apply RWf_new; lia).
  destruct l as [|m l]; [reflexivity|].
  rewrite zlen_cons. pose proof (zlen_nonneg l). destruct (Z.ltb_spec 0 (zlen l + 1)); auto; lia.
Qed.
Print Assumptions C19_boot_state.

(** ** C27, and the refinement behind C26 *)

(** Every history of bytes and polls (frames of at most 78 payload characters, no
    program line that fills the EEPROM to the last byte) runs without fault and makes
    exactly the calls of the protocol specification [spec_run]. *)
Theorem C27_component_refines_spec : forall sgn junk mem l es,
  zlen junk = 300 -> holds sgn mem l -> Forall (fun m => zlen m <= 80) l ->
  host_ok (spec_boot l) es ->
  exists s s', c_boot junk mem = Ok s /\ c_run sgn s es = Ok (fst (spec_run (spec_boot l) es), s').
Proof. exact mcp_refines_spec. Qed.
Print Assumptions C27_component_refines_spec.

Lemma host_ok_sizes es : forall t, host_ok t es -> zlen (payload (scur t)) <= 78 ->
  Forall (fun m => zlen m <= 80) (squeue t) -> Forall (fun m => zlen m <= 80) (slog t) ->
  Forall (fun a => Forall (fun m => zlen m <= 80) (parsed a)) (fst (spec_run t es)).
Proof.
  induction es as [|e es IH]; intros t H HC HQ HL; cbn [spec_run host_ok] in *; [constructor|].
  destruct H as [HE H].
  assert (K : zlen (payload (scur (fst (spec_step t e)))) <= 78 /\
              Forall (fun m => zlen m <= 80) (squeue (fst (spec_step t e))) /\
              Forall (fun m => zlen m <= 80) (slog (fst (spec_step t e))) /\
              Forall (fun m => zlen m <= 80) (parsed (snd (spec_step t e)))).
  { destruct e as [c|done]; cbn [spec_step].
    - destruct (Z.eqb_spec c 13) as [->|Hc].
      + set (p := payload (scur t)) in *. clearbody p.
        assert (HEN : forall m, zlen m <= 80 -> Forall (fun m => zlen m <= 80) (enqueue (squeue t) m)).
        { intros m Hm. unfold enqueue. destruct (space (squeue t) + zlen m + 1 <=? 300); auto.
          apply Forall_app; auto. }
        assert (Z0 : zlen (payload []) <= 78) by (vm_compute; discriminate).
        destruct p as [|c rest]; cbn [spec_command fst snd squeue slog scur]; [splits; auto; constructor|].
        rewrite zlen_cons in HC. pose proof (zlen_nonneg rest).
        destruct (c =? 66); [cbn; splits; auto|].
        destruct (c =? 69); [cbn; splits; auto; repeat constructor; lia|].
        destruct (c =? 81).
        { destruct rest; cbn [fst snd squeue slog scur]; splits; auto; try constructor; apply HEN; lia. }
        destruct (c =? 87).
        { destruct rest; cbn [fst snd squeue slog scur]; splits; auto; try constructor; apply log80_append; auto; lia. }
        cbn [fst snd squeue slog scur]; splits; auto; try constructor; apply HEN; rewrite zlen_cons; lia.
      + cbn. splits; auto; constructor.
    - unfold spec_poll. destruct done; [|cbn; splits; auto; constructor].
      destruct (smode t); try (cbn; splits; auto; constructor).
      + destruct (squeue t) as [|m q] eqn:EQ; cbn [fst snd squeue slog scur]; rewrite ?EQ; [splits; auto; constructor|].
        inversion HQ; subst. splits; auto. repeat constructor; auto.
      + cbn [fst snd squeue slog scur]. splits; auto.
        destruct (nth_error (slog t) _) as [m|] eqn:EN; [|constructor].
        repeat constructor. rewrite Forall_forall in HL. apply HL. eapply nth_error_In; eauto. }
  destruct K as (K1 & K2 & K3 & K4). pose proof (IH _ H K1 K2 K3) as IH'.
  destruct (spec_step t e) as [t1 a]. cbn [fst snd] in *.
  destruct (spec_run t1 es) as [as_ t2]. cbn [fst snd] in *. constructor; auto.
Qed.

(** what one session leaves in the EEPROM *)
Definition log_after (l : log) (es : list cev) : log := slog (snd (spec_run (spec_boot l) es)).

Fixpoint sessions_ok (l : log) (ss : list (list Z * list cev)) : Prop :=
  match ss with
  | [] => True
  | (junk, es) :: r => zlen junk = 300 /\ host_ok (spec_boot l) es /\ sessions_ok (log_after l es) r
  end.

(** C27: over any number of power cycles, starting from a program that was written by
    this firmware, nothing ever faults, and every text handed to the MRIL parser (from
    the queue, the stored program, or an immediate command) has at most 80 characters. *)
Theorem C27_never_overruns : forall sgn ss mem l,
  holds sgn mem l -> Forall (fun m => zlen m <= 80) l -> sessions_ok l ss ->
  exists acts mem', c_sessions sgn mem ss = Ok (acts, mem') /\
    Forall (Forall (fun a => Forall (fun m => zlen m <= 80) (parsed a))) acts.
Proof.
  intros sgn ss. induction ss as [|[junk es] ss IH]; intros mem l HS HL H; cbn [c_sessions].
  - do 2 eexists; split; [reflexivity|constructor].
  - destruct H as (HJ & HO & H).
    destruct (c_boot_inv sgn junk mem l HJ HS HL) as (s & E & I). rewrite E. cbn [bind].
    destruct (c_run_refines sgn es s _ I HO) as (s' & E2 & I2). rewrite E2. cbn [bind].
    destruct (IH (emem (mstore (cm s'))) (log_after l es)) as (acts & mem' & E3 & F); auto.
    { apply I2. } { apply I2. }
    rewrite E3. cbn [bind]. do 2 eexists; split; [reflexivity|]. constructor; auto.
    apply host_ok_sizes; auto. vm_compute; discriminate. constructor.
Qed.
Print Assumptions C27_never_overruns.

(** an EEPROM just erased holds the empty program, so the hypotheses are met *)
Definition blank1 : list Z := 0 :: repeat 255 (Z.to_nat 2047).
Definition demo_bytes : list cev :=
  map CChar [88; 49; 13; 58; 81; 89; 50; 13; 69; 90; 51; 13] ++ [CPoll false; CPoll true; CPoll true; CPoll true].
Example C27_demo : host_ok (spec_boot []) demo_bytes.
Proof. vm_compute. splits; auto; discriminate. Qed.

(** ** C26 at the level of the protocol parser *)

Lemma queueable_spec t p : plain_command p ->
  squeue (fst (spec_command t p)) =
    match queueable p with Some m => enqueue (squeue t) m | None => squeue t end /\
  (smode t = QUEUE -> smode (fst (spec_command t p)) = QUEUE).
Proof.
  intros [P1 P2]. destruct p as [|c rest]; cbn; auto.
  destruct (Z.eqb_spec c 66); cbn; auto. destruct (Z.eqb_spec c 69); cbn; auto.
  destruct (Z.eqb_spec c 81).
  - subst. destruct rest; [congruence|]. cbn. auto.
  - destruct (Z.eqb_spec c 87); [subst; exfalso; eapply P2; eauto|]. cbn. auto.
Qed.

(** all instructions that arrive fit in the free space at their arrival *)
Fixpoint never_full (t : sstate) (es : list cev) : Prop :=
  match es with
  | [] => True
  | e :: r =>
      match e with
      | CChar c => if c =? 13 then
                     match queueable (payload (scur t)) with
                     | Some m => space (squeue t) + zlen m + 1 <= 300
                     | None => True
                     end
                   else True
      | CPoll _ => True
      end /\ never_full (fst (spec_step t e)) r
  end.

Lemma spec_fifo es : forall t, smode t = QUEUE -> Forall plain_command (commands (scur t) es) ->
  never_full t es ->
  taken es (fst (spec_run t es)) ++ squeue (snd (spec_run t es)) =
  squeue t ++ wanted (commands (scur t) es).
Proof.
  induction es as [|e es IH]; intros t HM HP HN; cbn [spec_run taken commands never_full] in *.
  - cbn. now rewrite app_nil_r.
  - destruct HN as [HN1 HN2].
    destruct e as [c|done]; cbn [spec_step] in *.
    + destruct (Z.eqb_spec c 13) as [->|Hc].
      * inversion HP as [|? ? P1 P2]; subst.
        destruct (queueable_spec t _ P1) as [Q1 Q2].
        destruct (spec_command t (payload (scur t))) as [t' a]. cbn [fst snd] in *.
        specialize (IH (mkS (squeue t') (slog t') (snext t') (smode t') [])). cbn [smode scur squeue] in IH.
        specialize (IH (Q2 HM) P2 HN2).
        destruct (spec_run (mkS (squeue t') (slog t') (snext t') (smode t') []) es) as [as_ t2].
        cbn [fst snd] in *. rewrite IH, Q1. unfold wanted. cbn [flat_map].
        destruct (queueable (payload (scur t))) as [m|]; cbn [app]; auto.
        unfold enqueue. destruct (Z.leb_spec (space (squeue t) + zlen m + 1) 300); [|lia].
        now rewrite <- app_assoc.
      * cbn [fst snd] in *.
        specialize (IH (mkS (squeue t) (slog t) (snext t) (smode t) (scur t ++ [c]))). cbn [smode scur squeue] in IH.
        specialize (IH HM HP HN2).
        destruct (spec_run (mkS (squeue t) (slog t) (snext t) (smode t) (scur t ++ [c])) es) as [as_ t2].
        cbn [fst snd] in *. exact IH.
    + unfold spec_poll in *. destruct done.
      2:{ cbn [fst snd] in *. specialize (IH t HM HP HN2).
          destruct (spec_run t es) as [as_ t2]. exact IH. }
      rewrite HM in *. destruct (squeue t) as [|m q] eqn:EQ; cbn [fst snd] in *.
      * specialize (IH t HM HP HN2). destruct (spec_run t es) as [as_ t2]. cbn [fst snd] in *. now rewrite EQ in IH.
      * specialize (IH (mkS q (slog t) (snext t) QUEUE (scur t))). cbn [smode scur squeue] in IH.
        specialize (IH eq_refl HP HN2).
        destruct (spec_run (mkS q (slog t) (snext t) QUEUE (scur t)) es) as [as_ t2].
        cbn [fst snd] in *. cbn [parsed flat_map app]. now rewrite IH.
Qed.

(** C26 (protocol parser): in queue mode, with any interleaving of incoming bytes and
    polls, the instructions taken by polls, followed by those still waiting, are exactly
    the instructions that arrived, in order, each once; and nothing is taken by a poll
    that finds the interpreter busy. *)
Theorem C26_queue_is_fifo : forall sgn s q l n es,
  CInv sgn s (mkS q l n QUEUE []) ->
  host_ok (mkS q l n QUEUE []) es -> never_full (mkS q l n QUEUE []) es ->
  Forall plain_command (commands [] es) ->
  exists acts s' waiting, c_run sgn s es = Ok (acts, s') /\
    rabs (mring (cm s')) = enc waiting /\ taken es acts ++ waiting = q ++ wanted (commands [] es).
Proof.
  intros sgn s q l n es I HO HN HP.
  destruct (c_run_refines sgn es s _ I HO) as (s' & E & I2).
  do 2 eexists. exists (squeue (snd (spec_run (mkS q l n QUEUE []) es))).
  split; [exact E|]. split; [apply I2|].
  apply (spec_fifo es (mkS q l n QUEUE [])); auto.
Qed.
Print Assumptions C26_queue_is_fifo.

Theorem C26_busy_poll_takes_nothing : forall sgn s, 
  m_process sgn false s = Ok (s, []).
Proof. intros sgn [[] r st]; reflexivity. Qed.
Print Assumptions C26_busy_poll_takes_nothing.

(** the first queued instruction leads into the hypotheses *)
Theorem C26_reachable : forall sgn junk mem, zlen junk = 300 -> holds sgn mem [] ->
  exists s s1 a, c_boot junk mem = Ok s /\ c_run sgn s (map CChar [88; 49; 13]) = Ok (a, s1) /\
              CInv sgn s1 (mkS [[88; 49]] [] 1 QUEUE []).
Proof.
  intros sgn junk mem HJ HS. destruct (c_boot_inv sgn junk mem [] HJ HS) as (s & E & I); [constructor|].
  destruct (c_run_refines sgn (map CChar [88; 49; 13]) s _ I) as (s' & E2 & I2).
  { vm_compute. splits; auto; discriminate. }
  exists s, s'. eexists. split; [exact E|]. split; [exact E2|]. exact I2.
Qed.
Print Assumptions C26_reachable.

Example C26_demo_hyps :
  let t := mkS [[88; 49]] [] 1 QUEUE [] in
  let es := map CChar [89; 50; 13] ++ [CPoll false; CPoll true] ++ map CChar [66; 13; 81; 90; 13] ++ [CPoll true] in
  host_ok t es /\ never_full t es /\ Forall plain_command (commands [] es) /\
  taken es (fst (spec_run t es)) = [[88; 49]; [89; 50]] /\ wanted (commands [] es) = [[89; 50]; [90]].
Proof.
  cbv zeta. split; [vm_compute; splits; auto; discriminate|].
  split; [vm_compute; splits; auto; discriminate|].
  split; [|split; vm_compute; reflexivity].
  vm_compute. repeat constructor; try discriminate.
Qed.
