(** Proofs about M_Group: the order of the handlers. *)
From Verif Require Import Base GoErrors M_Pipeline M_Group S_Group P_Group P_Group2 P_Group3.

Section Ord.
Variables (s : gset) (ses : option prog) (path : bytes).
Notation areach := (areach s ses path).
Notation astep := (astep s ses path).
Notation cstep := (cstep s ses path).
Notation npos := (npos s path).
Notation nb := (length (gs_before s)).
Notation na := (length (gs_after s)).
Definition bl (i : nat) : list who := WInit :: map WBefore (seq 0 i).
Definition al (wm : bool) (i : nat) : list who := bl nb ++ (if wm then [WMain] else []) ++ map WAfter (seq 0 i).
Lemma bl_S : forall i, bl (S i) = bl i ++ [WBefore i].
Proof. intros i. unfold bl. rewrite seq_S, map_app. reflexivity. Qed.
Lemma al_S : forall wm i, al wm (S i) = al wm i ++ [WAfter i].
Proof. intros wm i. unfold al. rewrite seq_S, map_app, <- !app_assoc. reflexivity. Qed.
Lemma bl_plan : forall i wm, i <= nb -> exists more, plan s wm = bl i ++ more.
Proof.
  intros i wm L. exists (map WBefore (seq i (nb - i)) ++ (if wm then [WMain] else []) ++ map WAfter (seq 0 na)).
  unfold plan, bl. cbn [app]. f_equal. rewrite (app_assoc (map WBefore (seq 0 i))), <- map_app, (eq_sym (seq_app i (nb - i) 0) : seq 0 i ++ seq i (nb - i) = _). replace (i + (nb - i)) with nb by lia. reflexivity.
Qed.
Lemma al_plan : forall i wm, i <= na -> exists more, plan s wm = al wm i ++ more.
Proof.
  intros i wm L. exists (map WAfter (seq i (na - i))). unfold plan, al, bl. cbn [app]. f_equal. rewrite <- !app_assoc. f_equal. f_equal.
  rewrite <- map_app, (eq_sym (seq_app i (na - i) 0) : seq 0 i ++ seq i (na - i) = _). replace (i + (na - i)) with na by lia. reflexivity.
Qed.
Lemma al_full : forall wm, plan s wm = al wm na.
Proof. reflexivity. Qed.
Definition fin_ok (l : list who) (tr : log) : Prop :=
  exists wm more, plan s wm = l ++ more /\ (wm = false -> happened (EAct DoSkip) tr) /\
    (more <> [] -> halted tr \/ gs_main s = None).
Definition at_list (p : pos) (l : list who) (tr : log) : Prop :=
  match p with
  | PStart WSesInit | PIn WSesInit _ | PStart WInit => l = []
  | PIn WInit _ => l = bl 0
  | PStart (WBefore i) => i < nb /\ l = bl i
  | PIn (WBefore i) _ | PCheck (WBefore i) => i < nb /\ l = bl (S i)
  | PSkip | PStart WMain => l = bl nb
  | PIn WMain _ | PCheck WMain => l = bl nb ++ [WMain]
  | PStart (WAfter i) => i < na /\ exists wm, l = al wm i /\ (wm = false -> happened (EAct DoSkip) tr)
  | PIn (WAfter i) _ | PCheck (WAfter i) => i < na /\ exists wm, l = al wm (S i) /\ (wm = false -> happened (EAct DoSkip) tr)
  | _ => fin_ok l tr
  end.
Definition tail_ok (p : pos) (z : list who) (tr : log) : Prop :=
  match p with
  | PIn (WLast e) _ => z = [WLast e]
  | PRet _ | PEnd _ => (exists e, z = [WLast e]) \/ (z = [] /\ (gs_last s = None \/ halted tr \/ gs_main s = None))
  | _ => z = []
  end.
Definition head_ok (p : pos) (a : list who) : Prop :=
  match p with
  | PStart WSesInit => a = [] /\ ses <> None
  | PIn WSesInit _ => a = [WSesInit] /\ ses <> None
  | _ => a = with_init ses
  end.
Definition ord (p : pos) (tr : log) : Prop :=
  exists a l z, called tr = a ++ l ++ z /\ head_ok p a /\ at_list p l tr /\ tail_ok p z tr.
Lemma halted_mono : forall w e tr, halted tr -> halted ((w, e) :: tr).
Proof.
  intros w e tr [H|[H|(x & o & N & Nl & H)]]; [left|right; left|right; right; exists x, o; split; [exact N|]; split; [exact Nl|]]; apply happened_mono; exact H.
Qed.
Lemma fin_mono : forall w e l tr, fin_ok l tr -> fin_ok l ((w, e) :: tr).
Proof.
  intros w e l tr (wm & more & E & K & H). exists wm, more. split; [exact E|]. split; [intros F; apply happened_mono; auto|].
  intros N. destruct (H N); [left; apply halted_mono|right]; assumption.
Qed.
Lemma at_mono : forall w e p l tr, at_list p l tr -> at_list p l ((w, e) :: tr).
Proof.
  intros w e p l tr H.
  assert (K : forall (f : bool -> list who), (exists wm, l = f wm /\ (wm = false -> happened (EAct DoSkip) tr)) ->
     exists wm, l = f wm /\ (wm = false -> happened (EAct DoSkip) ((w, e) :: tr)))
    by (intros f (wm & E & F); exists wm; split; [exact E|]; intros X; apply happened_mono; auto).
  destruct p as [x|x q|x| |er|er|r|r]; cbn [at_list] in *; try (destruct x; cbn [at_list] in *); try assumption;
    try (apply fin_mono; assumption); try (destruct H as [L H]; split; [exact L|]; apply K; exact H).
Qed.
Lemma tail_mono : forall w e p z tr, tail_ok p z tr -> tail_ok p z ((w, e) :: tr).
Proof.
  intros w e p z tr H. destruct p as [x|x q|x| |er|er|r|r]; cbn [tail_ok] in *; try assumption.
  - destruct H as [H|(H & [K|[K|K]])]; [left; exact H|right; auto|right; split; [exact H|]; right; left; apply halted_mono; exact K|right; auto].
  - destruct H as [H|(H & [K|[K|K]])]; [left; exact H|right; auto|right; split; [exact H|]; right; left; apply halted_mono; exact K|right; auto].
Qed.
Lemma fin_bl : forall i tr, i <= nb -> halted tr -> fin_ok (bl i) tr.
Proof. intros i tr L H. destruct (bl_plan i true L) as (more & E). exists true, more. split; [exact E|]. split; [discriminate|auto]. Qed.
Lemma fin_al : forall i wm tr, i <= na -> (wm = false -> happened (EAct DoSkip) tr) -> halted tr \/ i = na -> fin_ok (al wm i) tr.
Proof.
  intros i wm tr L S [H| ->].
  - destruct (al_plan i wm L) as (more & E). exists wm, more. auto.
  - exists wm, []. rewrite app_nil_r. split; [apply al_full|]. split; [exact S|]. intros N. now destruct N.
Qed.
Lemma at_next_before : forall i tr, i <= nb -> at_list (next_before s i) (bl i) tr.
Proof. intros i tr L. unfold next_before. destruct (Nat.ltb_spec i nb); cbn [at_list]; [auto|]. f_equal. lia. Qed.
Lemma at_next_after : forall i wm tr, i <= na -> (wm = false -> happened (EAct DoSkip) tr) -> at_list (next_after s i) (al wm i) tr.
Proof.
  intros i wm tr L S. unfold next_after. destruct (Nat.ltb_spec i na); cbn [at_list].
  - split; [assumption|]. exists wm. auto.
  - apply fin_al; [assumption|assumption|right; lia].
Qed.
Lemma head_next_before : forall i a, a = with_init ses -> head_ok (next_before s i) a.
Proof. intros i a H. unfold next_before. destruct (_ <? _); exact H. Qed.
Lemma head_next_after : forall i a, a = with_init ses -> head_ok (next_after s i) a.
Proof. intros i a H. unfold next_after. destruct (_ <? _); exact H. Qed.
Lemma tail_next_before : forall i tr, tail_ok (next_before s i) [] tr.
Proof. intros i tr. unfold next_before. destruct (_ <? _); reflexivity. Qed.
Lemma tail_next_after : forall i tr, tail_ok (next_after s i) [] tr.
Proof. intros i tr. unfold next_after. destruct (_ <? _); reflexivity. Qed.
Lemma called_end : forall w x o tr, called ((x, EMark (MEnd w o)) :: tr) = called tr. Proof. reflexivity. Qed.
Lemma ord_begin : forall tr, called tr = with_init ses -> ord (begin s) tr.
Proof.
  intros tr H. exists (with_init ses), [], []. rewrite !app_nil_r. split; [exact H|]. unfold begin.
  destruct (gs_main s) eqn:E; (split; [reflexivity|]; split; [|]); try reflexivity.
  - exists true, (plan s true). split; [reflexivity|]. split; [discriminate|]. intros _. right. first [reflexivity|assumption].
  - right. auto.
Qed.
Lemma halted_end : forall w o x tr, o <> HRet None -> (forall e, w <> WLast e) -> halted ((x, EMark (MEnd w o)) :: tr).
Proof. intros w o x tr H Hl. right; right. exists w, o. split; [exact H|]. split; [exact Hl|]. exists x. left. reflexivity. Qed.
Lemma ord_npos : forall w o tr, real w -> ord (PIn w (Ret o)) tr -> ord (npos w o) ((None, EMark (MEnd w o)) :: tr).
Proof.
  intros w o tr R (a & l & z & E & Hh & Ha & Hz). set (tr' := (None, EMark (MEnd w o)) :: tr).
  assert (E' : called tr' = a ++ l ++ z) by exact E.
  destruct w; cbn [P_Group.npos].
  - (* Init *) cbn [head_ok at_list tail_ok] in *. subst a l z. destruct o as [[er|]|].
    + exists (with_init ses), (bl 0), []. split; [exact E'|]. split; [reflexivity|]. split; [|reflexivity].
      apply fin_bl; [lia|]. apply halted_end; discriminate.
    + exists (with_init ses), (bl 0), []. split; [exact E'|]. split; [apply head_next_before; reflexivity|]. split; [apply at_next_before; lia|apply tail_next_before].
    + exists (with_init ses), (bl 0), []. split; [exact E'|]. split; [reflexivity|].
      assert (Hl : halted tr') by (apply halted_end; discriminate). split; [apply fin_bl; [lia|exact Hl]|]. right. auto.
  - (* Before *) cbn [head_ok at_list tail_ok] in *. destruct Ha as [Li Ha]. subst a l z. destruct o as [[er|]|].
    + exists (with_init ses), (bl (S i)), []. split; [exact E'|]. split; [reflexivity|]. split; [|reflexivity].
      apply fin_bl; [lia|]. apply halted_end; discriminate.
    + exists (with_init ses), (bl (S i)), []. split; [exact E'|]. split; [reflexivity|]. split; [split; [exact Li|reflexivity]|reflexivity].
    + exists (with_init ses), (bl (S i)), []. split; [exact E'|]. split; [reflexivity|].
      assert (Hl : halted tr') by (apply halted_end; discriminate). split; [apply fin_bl; [lia|exact Hl]|]. right. auto.
  - (* Main *) cbn [head_ok at_list tail_ok] in *. subst a l z.
    assert (Ea : bl nb ++ [WMain] = al true 0) by (unfold al; rewrite app_nil_r; reflexivity).
    destruct o as [[er|]|].
    + exists (with_init ses), (bl nb ++ [WMain]), []. split; [exact E'|]. split; [reflexivity|]. split; [|reflexivity].
      rewrite Ea. apply fin_al; [lia|discriminate|left; apply halted_end; discriminate].
    + exists (with_init ses), (bl nb ++ [WMain]), []. split; [exact E'|]. split; [reflexivity|]. split; reflexivity.
    + exists (with_init ses), (bl nb ++ [WMain]), []. split; [exact E'|]. split; [reflexivity|].
      assert (Hl : halted tr') by (apply halted_end; discriminate). split; [rewrite Ea; apply fin_al; [lia|discriminate|left; exact Hl]|]. right. auto.
  - (* After *) cbn [head_ok at_list tail_ok] in *. destruct Ha as [Li (wm & Ha & Hs)]. subst a l z.
    assert (Hs' : wm = false -> happened (EAct DoSkip) tr') by (intros X; apply happened_mono; auto).
    destruct o as [[er|]|].
    + exists (with_init ses), (al wm (S i)), []. split; [exact E'|]. split; [reflexivity|]. split; [|reflexivity].
      apply fin_al; [lia|exact Hs'|left; apply halted_end; discriminate].
    + exists (with_init ses), (al wm (S i)), []. split; [exact E'|]. split; [reflexivity|]. split; [split; [exact Li|exists wm; auto]|reflexivity].
    + exists (with_init ses), (al wm (S i)), []. split; [exact E'|]. split; [reflexivity|].
      assert (Hl : halted tr') by (apply halted_end; discriminate). split; [apply fin_al; [lia|exact Hs'|left; exact Hl]|]. right. auto.
  - (* SesInit *) cbn [head_ok at_list tail_ok] in *. destruct Hh as [-> Hn]. subst l z. cbn [app] in E'.
    assert (Ew : with_init ses = [WSesInit]) by (destruct ses; [reflexivity|congruence]).
    destruct o as [[er|]|]; [|apply ord_begin; rewrite Ew; exact E'|];
      (assert (Hl : halted tr') by (apply halted_end; discriminate); exists [WSesInit], [], []; split; [exact E'|];
       split; [symmetry; exact Ew|]; split; [exists true, (plan s true); split; [reflexivity|]; split; [discriminate|auto]|right; auto]).
  - exfalso. apply R. reflexivity.
  - (* Last *) cbn [head_ok at_list tail_ok] in *. subst z. exists a, l, [WLast e]. split; [exact E'|]. split; [exact Hh|]. split; [apply fin_mono; exact Ha|].
    left. exists e. reflexivity.
Qed.
Lemma ord_still : forall p w e tr, (forall m, e <> EMark m) -> ord p tr -> ord p ((w, e) :: tr).
Proof.
  intros p w e tr H (a & l & z & E & Hh & Ha & Hz). exists a, l, z. rewrite called_other by exact H.
  split; [exact E|]. split; [exact Hh|]. split; [apply at_mono; exact Ha|apply tail_mono; exact Hz].
Qed.
Lemma ord_next : forall w tr, in_pipeline w -> w <> WInit -> ord (PCheck w) tr -> ord (next s w) tr.
Proof.
  intros w tr Hi Nw (a & l & z & E & Hh & Ha & Hz). destruct w as [|i| |i| | |e]; try (now destruct Hi); try congruence;
    cbn [head_ok at_list tail_ok next] in *.
  - destruct Ha as [Li ->]. subst z. exists a, (bl (S i)), []. split; [exact E|]. split; [apply head_next_before; exact Hh|].
    split; [apply at_next_before; lia|apply tail_next_before].
  - subst l z. exists a, (al true 0), []. split; [rewrite E; unfold al; rewrite !app_nil_r; reflexivity|].
    split; [apply head_next_after; exact Hh|]. split; [apply at_next_after; [lia|discriminate]|apply tail_next_after].
  - destruct Ha as [Li (wm & -> & Hs)]. subst z. exists a, (al wm (S i)), []. split; [exact E|]. split; [apply head_next_after; exact Hh|].
    split; [apply at_next_after; [lia|exact Hs]|apply tail_next_after].
Qed.
Definition check_pos (p : pos) : Prop := match p with PCheck w => in_pipeline w /\ w <> WInit | PIn w _ | PStart w => real w | _ => True end.
Lemma check_npos : forall w o, real w -> check_pos (npos w o).
Proof.
  intros w o R. destruct w; cbn [P_Group.npos]; try exact I; destruct o as [[er|]|]; try exact I;
    unfold next_before, begin; try (destruct (_ <? _)); try (destruct (gs_main s)); cbn; try exact I; try (split; [exact I|]); try discriminate.
  all: exfalso; apply R; reflexivity.
Qed.
Lemma check_areach : forall y p, areach y p -> check_pos p.
Proof.
  intros y p A. induction A as [|y p y' p' A IH St].
  - unfold first_pos, begin. destruct ses; [discriminate|]. destruct (gs_main s); [discriminate|exact I].
  - destruct (astep_cases _ _ _ _ _ _ _ St) as [(e & C & _)|(-> & _)]; [|exact IH].
    destruct C; try exact I; try assumption.
    + apply check_npos. exact IH.
    + destruct w; cbn [next]; unfold next_before, next_after; try exact I; destruct (_ <? _); cbn; try exact I; discriminate.
    + unfold next_after. destruct (_ <? _); cbn; try exact I; discriminate.
    + discriminate.
    + unfold wait_next. destruct (gs_last s); cbn; try exact I; discriminate.
Qed.
Lemma ord_areach : forall y p, areach y p -> ord p (y_trace y).
Proof.
  intros y p A. induction A as [|y p y' p' A IH St].
  - unfold first_pos. destruct ses eqn:Es; cbn [init y_trace].
    + exists [], [], []. cbn. rewrite Es. split; [reflexivity|]. split; [split; [reflexivity|discriminate]|]. split; reflexivity.
    + apply ord_begin. rewrite Es. reflexivity.
  - pose proof (check_areach _ _ A) as K.
    destruct (astep_cases _ _ _ _ _ _ _ St) as [(e & C & -> & _ & El)|(-> & (w & e & O & -> & _) & _)];
      [|apply ord_still; [apply other_not_mark; exact O|exact IH]].
    destruct (flags_areach _ _ _ _ _ A) as (F1 & F2 & F3).
    destruct C as [w R|w q e q' Ue|w o|w f Ef|w f Ef|f Ef|f Ef|e f Ef|e f Ef|e g|r].
    + destruct IH as (a & l & z & E & Hh & Ha & Hz). cbn [check_pos] in K.
      destruct w as [|i| |i| | |e]; cbn [head_ok at_list tail_ok] in Hh, Ha, Hz.
      * subst. exists (with_init ses), (bl 0), []. cbn [called]. rewrite E, !app_nil_r. split; [reflexivity|]. split; [reflexivity|]. split; reflexivity.
      * destruct Ha as [Li ->]. subst. exists (with_init ses), (bl (S i)), []. cbn [called]. rewrite E, !app_nil_r, bl_S, app_assoc. 
        split; [reflexivity|]. split; [reflexivity|]. split; [split; [exact Li|symmetry; apply bl_S]|reflexivity].
      * subst. exists (with_init ses), (bl nb ++ [WMain]), []. cbn [called]. rewrite E, !app_nil_r, app_assoc. split; [reflexivity|]. split; [reflexivity|]. split; reflexivity.
      * destruct Ha as [Li (wm & -> & Hs)]. subst. exists (with_init ses), (al wm (S i)), []. cbn [called]. rewrite E, !app_nil_r, al_S, app_assoc.
        split; [reflexivity|]. split; [reflexivity|]. split; [|reflexivity]. split; [exact Li|]. exists wm. split; [symmetry; apply al_S|].
        intros X. apply happened_mono. auto.
      * destruct Hh as [-> Hn]. subst. exists [WSesInit], [], []. cbn [called]. rewrite E. split; [reflexivity|]. split; [split; [reflexivity|exact Hn]|]. split; reflexivity.
      * exfalso. apply R. reflexivity.
      * subst. exists (with_init ses), l, [WLast e]. cbn [called]. rewrite E, !app_nil_r, <- app_assoc. split; [reflexivity|]. split; [reflexivity|].
        split; [apply fin_mono; exact Ha|reflexivity].
    + apply (ord_still (PIn w q')); [apply user_not_mark; exact Ue|]. exact IH.
    + apply ord_npos; [exact K|exact IH].
    + destruct IH as (a & l & z & E & Hh & Ha & Hz). destruct K as [K Kn].
      assert (Hl : halted (y_trace y)). { rewrite (El _ eq_refl) in Ef. apply orb_prop in Ef. destruct Ef as [Ef|Ef]; [right; left; apply F2|left; apply F1]; exact Ef. }
      exists a, l, z. rewrite called_other by discriminate. split; [exact E|]. destruct w as [|i| |i| | |e]; try (now destruct K); try congruence;
        cbn [head_ok at_list tail_ok] in *; (split; [assumption|]; split; [|assumption]); apply fin_mono.
      * destruct Ha as [Li ->]. apply fin_bl; [lia|exact Hl].
      * subst l. assert (bl nb ++ [WMain] = al true 0) as -> by (unfold al; rewrite app_nil_r; reflexivity). apply fin_al; [lia|discriminate|auto].
      * destruct Ha as [Li (wm & -> & Hs)]. apply fin_al; [lia|exact Hs|auto].
    + apply ord_still; [discriminate|]. destruct K. apply ord_next; assumption.
    + apply ord_still; [discriminate|]. destruct IH as (a & l & z & E & Hh & Ha & Hz). cbn [head_ok at_list tail_ok] in *. subst.
      exists (with_init ses), (al false 0), []. split; [rewrite E; unfold al; rewrite !app_nil_r; reflexivity|].
      split; [apply head_next_after; reflexivity|]. split; [|apply tail_next_after].
      apply at_next_after; [lia|]. intros _. apply F3. rewrite <- (El _ eq_refl). exact Ef.
    + apply ord_still; [discriminate|]. exact IH.
    + destruct IH as (a & l & z & E & Hh & Ha & Hz). cbn [head_ok at_list tail_ok] in *. subst.
      exists (with_init ses), l, []. rewrite called_other by discriminate. split; [exact E|]. split; [reflexivity|]. split; [apply fin_mono; exact Ha|].
      right. split; [reflexivity|]. right; left. right; left. apply happened_mono. apply F2. rewrite <- (El _ eq_refl). exact Ef.
    + apply ord_still; [discriminate|]. exact IH.
    + apply ord_still; [discriminate|]. destruct IH as (a & l & z & E & Hh & Ha & Hz). cbn [head_ok at_list tail_ok] in *. subst.
      unfold wait_next. destruct (gs_last s) eqn:El'.
      * exists (with_init ses), l, []. split; [exact E|]. split; [reflexivity|]. split; [exact Ha|reflexivity].
      * exists (with_init ses), l, []. split; [exact E|]. split; [reflexivity|]. split; [exact Ha|]. right. auto.
    + destruct IH as (a & l & z & E & Hh & Ha & Hz). exists a, l, z. cbn [called]. split; [exact E|]. split; [exact Hh|].
      split; [apply fin_mono; exact Ha|]. apply (tail_mono None _ (PRet r)). exact Hz.
Qed.
End Ord.
