From Verif Require Import Base IoModel IoSpec.
Open Scope Z_scope.

Lemma io_check_spec lv conds : forall i,
  io_check lv i conds = true <->
  (forall k p st, nth_error conds k = Some (p, st) -> met st (lv (i + k)%nat p)).
Proof.
  induction conds as [|[p st] r IH]; intros i.
  - cbn. split; auto. intros _ k p st H. destruct k; discriminate.
  - assert (HC : forall (P : nat -> Prop), (forall k, P k) <-> P O /\ forall k, P (S k)).
    { intros P; split; [auto|]. intros [? ?] [|k]; auto. }
    rewrite (HC (fun k => forall p0 st0, nth_error ((p, st) :: r) k = Some (p0, st0) -> met st0 (lv (i + k)%nat p0))).
    assert (HT : (forall k p0 st0, nth_error ((p, st) :: r) (S k) = Some (p0, st0) -> met st0 (lv (i + S k)%nat p0))
                 <-> io_check lv (S i) r = true).
    { rewrite IH. cbn [nth_error].
      split; intros H k p0 st0 HN; specialize (H k p0 st0 HN); now rewrite Nat.add_succ_r in *. }
    rewrite HT. clear HT HC IH. cbn [nth_error io_check].
    assert (HH : (forall p0 st0, Some (p, st) = Some (p0, st0) -> met st0 (lv (i + 0)%nat p0)) <-> met st (lv i p)).
    { rewrite Nat.add_0_r. split; [auto|]. intros H p0 st0 E. injection E as <- <-. auto. }
    rewrite HH. clear HH. unfold met.
    destruct (Z.eqb_spec st 1) as [E1|E1].
    + destruct (lv i p); cbn [negb].
      * split; [intros H; splits; auto; intros; lia | tauto].
      * split; [discriminate|]. intros [[H _] _]. now apply H.
    + destruct (Z.eqb_spec st 0) as [E0|E0].
      * destruct (lv i p).
        -- split; [discriminate|]. intros [[_ H] _]. specialize (H E0). discriminate.
        -- split; [intros H; splits; auto; intros; lia | tauto].
      * split; [intros H; splits; auto; intros; lia | tauto].
Qed.

Lemma io_isDone_spec lv s :
  (fst (io_isDone lv s) = true <->
     (forall k p st, nth_error s k = Some (p, st) -> met st (lv k p))) /\
  (fst (io_isDone lv s) = true -> snd (io_isDone lv s) = []) /\
  (fst (io_isDone lv s) = false -> snd (io_isDone lv s) = s).
Proof.
  unfold io_isDone. destruct (Z.eqb_spec (zlen s) 0) as [E|E].
  - destruct s; [|rewrite zlen_cons in E; pose proof (zlen_nonneg s); lia].
    cbn. splits; auto; try discriminate. split; auto. intros _ k p st H. destruct k; discriminate.
  - destruct (io_check lv 0 s) eqn:C; cbn [fst snd]; splits; auto; try discriminate.
    + split; auto. intros _. apply (io_check_spec lv s 0). exact C.
    + split; [discriminate|]. intros H. exfalso.
      apply (io_check_spec lv s 0) in H. congruence.
Qed.

Lemma addCondition_spec pinMap s pin st : zlen pinMap = 10 -> 0 <= pin < 10 -> zlen s < 10 ->
  exists p acts, zget pinMap pin = Ok p /\
    io_addCondition pinMap s pin st = Ok (acts, s ++ [(p, st)]) /\
    (forall P q, q <> p -> pin_effects P acts q = P q) /\
    (forall P, pin_effects P acts p = (if st =? 1 then DirInPulldown else DirInPullup, snd (P p))).
Proof.
  intros HM HP HS. unfold io_addCondition.
  rewrite (zget_ok _ _ 0) by lia. cbn [bind].
  unfold MAX_CONDITIONS. destruct (Z.ltb_spec (zlen s) 10); [|lia].
  do 2 eexists; splits; [reflexivity|reflexivity| |].
  - intros P q Hq. destruct (st =? 1); cbn; unfold setdir;
      (destruct (Z.eqb_spec q (nth (Z.to_nat pin) pinMap 0)); [congruence|reflexivity]).
  - intros P. destruct (st =? 1); cbn; unfold setdir; rewrite Z.eqb_refl; reflexivity.
Qed.

Lemma setOutput_spec pinMap pin st : zlen pinMap = 10 -> 0 <= pin < 10 ->
  exists p acts, zget pinMap pin = Ok p /\ io_setOutput pinMap pin st = Ok acts /\
    (forall P q, q <> p -> pin_effects P acts q = P q) /\
    (forall P, fst (pin_effects P acts p) = DirOut) /\
    (forall P, st = 1 -> snd (pin_effects P acts p) = true) /\
    (forall P, st = 0 -> snd (pin_effects P acts p) = false) /\
    (forall P, st <> 0 -> st <> 1 -> snd (pin_effects P acts p) = snd (P p)).
Proof.
  intros HM HP. unfold io_setOutput.
  rewrite (zget_ok _ _ 0) by lia. cbn [bind].
  set (p := nth (Z.to_nat pin) pinMap 0).
  do 2 eexists; splits; [reflexivity|reflexivity| | | | |].
  - intros P q Hq. destruct (st =? 1); [|destruct (st =? 0)]; cbn; unfold setdir, setlevel;
      (destruct (Z.eqb_spec q p); [congruence|reflexivity]).
  - intros P. destruct (st =? 1); [|destruct (st =? 0)]; cbn; unfold setdir, setlevel;
      rewrite ?Z.eqb_refl; reflexivity.
  - intros P ->. cbn; unfold setdir, setlevel; rewrite ?Z.eqb_refl; reflexivity.
  - intros P ->. cbn; unfold setdir, setlevel; rewrite ?Z.eqb_refl; reflexivity.
  - intros P H0 H1. destruct (Z.eqb_spec st 1); [congruence|].
    destruct (Z.eqb_spec st 0); [congruence|]. cbn; unfold setdir; rewrite ?Z.eqb_refl; reflexivity.
Qed.

Lemma getTargetState_spec pinMap s pin : zlen pinMap = 10 -> 0 <= pin < 10 ->
  exists st, io_getTargetState pinMap s pin = Ok st.
Proof.
  intros HM HP. unfold io_getTargetState. rewrite (zget_ok _ _ 0) by lia. cbn. eauto.
Qed.

(** memory safety under the discipline *)
Lemma io_run_safe pinMap os : zlen pinMap = 10 -> forall s, disciplined pinMap s os ->
  exists s', io_run pinMap s os = Ok s'.
Proof.
  intros HM. induction os as [|o os IH]; intros s HD; cbn [io_run]; [eauto|].
  destruct o as [p st|p st|lv|p]; cbn [disciplined io_step] in *.
  - destruct HD as (Hp & Hn & HD).
    destruct (addCondition_spec pinMap s p st HM Hp Hn) as (q & acts & EQ & E & _).
    rewrite (zget_ok _ _ 0) in EQ by lia. injection EQ as <-.
    rewrite E. cbn [bind]. now apply IH.
  - destruct HD as (Hp & HD).
    destruct (setOutput_spec pinMap p st HM Hp) as (q & acts & _ & E & _).
    rewrite E. cbn [bind]. now apply IH.
  - cbn [bind]. apply IH. destruct HD as [HD1 HD2].
    destruct (io_isDone_spec lv s) as (H0 & H1 & H2).
    destruct (fst (io_isDone lv s)) eqn:E.
    + rewrite H1 by auto. apply HD1. exact (proj1 H0 eq_refl).
    + rewrite H2 by auto. apply HD2. intros HA. apply H0 in HA. discriminate.
  - destruct HD as (Hp & HD).
    destruct (getTargetState_spec pinMap s p HM Hp) as (st & E).
    rewrite E. cbn [bind]. now apply IH.
Qed.
