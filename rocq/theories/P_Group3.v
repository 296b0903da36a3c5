(** Proofs about M_Group: invariants of the control states. *)
From Verif Require Import Base GoErrors M_Pipeline M_Group S_Group P_Group P_Group2.

Section Ctl.
Variables (s : gset) (ses : option prog) (path : bytes).
Hypothesis U : user_request s ses.
Notation areach := (areach s ses path).
Notation astep := (astep s ses path).
Notation cstep := (cstep s ses path).
Notation npos := (npos s path).

(** a step that is not one of the request's own *)
Inductive other : event -> Prop :=
| o_user : forall e, user_event e -> other e
| o_ret : forall r, other (EReturned r) | o_gone : other EGone | o_shut : other EShutdown.
Lemma astep_cases : forall y p y' p', astep y p y' p' ->
  (exists e, cstep p e p' /\ y_trace y' = (None, e) :: y_trace y /\ 
     (forall g, e = EWaited g -> idle_list (y_gos y') /\ g = h_err (y_sh y)) /\ (forall f, e = ELook f -> f = h_flags (y_sh y))) \/
  (p' = p /\ (exists w e, other e /\ y_trace y' = (w, e) :: y_trace y /\ (forall a, e = EAct a -> idle_list (y_gos y) -> False)) /\
   (idle_list (y_gos y) -> y_gos y' = y_gos y /\ y_trace y' = (None, EShutdown) :: y_trace y)).
Proof.
  intros y p y' p' St. destruct St; cbn [y_trace y_sh y_gos].
  - left. exists e. split; [assumption|]. split; [reflexivity|].
    split; intros x ->; inversion H0; subst; [cbn [add]; split; [apply idle_bool; assumption|reflexivity]|reflexivity].
  - right. split; [reflexivity|]. assert (Ni : idle_list (g1 ++ Run q :: g2) -> False) by (intros F; apply idle_mid in F; discriminate).
    split; [|intros F; destruct (Ni F)]. eexists; eexists. split; [apply o_user; eassumption|]. split; [reflexivity|auto].
  - right. split; [reflexivity|]. assert (Ni : idle_list (g1 ++ Run (Ret (HRet e)) :: g2) -> False) by (intros F; apply idle_mid in F; discriminate).
    split; [|intros F; destruct (Ni F)]. eexists; eexists. split; [apply o_ret|]. split; [reflexivity|auto].
  - right. split; [reflexivity|]. assert (Ni : idle_list (g1 ++ Run (Ret HPanic) :: g2) -> False) by (intros F; apply idle_mid in F; discriminate).
    split; [|intros F; destruct (Ni F)]. eexists; eexists. split; [apply (o_user EPanic); constructor|]. split; [reflexivity|auto].
  - right. split; [reflexivity|]. assert (Ni : idle_list (g1 ++ Leaving :: g2) -> False) by (intros F; apply idle_mid in F; discriminate).
    split; [|intros F; destruct (Ni F)]. eexists; eexists. split; [apply o_gone|]. split; [reflexivity|auto].
  - right. split; [reflexivity|]. assert (Ni : idle_list (g1 ++ Leaving :: g2) -> False) by (intros F; apply idle_mid in F; discriminate).
    split; [|intros F; destruct (Ni F)]. eexists; eexists. split; [apply o_gone|]. split; [reflexivity|auto].
  - right. split; [reflexivity|]. split; [|auto]. eexists; eexists. split; [apply o_shut|]. split; [reflexivity|discriminate].
Qed.
Lemma other_not_mark : forall e, other e -> forall m, e <> EMark m.
Proof. intros e [e' H| | |] m; try discriminate. destruct H; discriminate. Qed.
Lemma user_not_mark : forall e, user_event e -> forall m, e <> EMark m.
Proof. intros e H m. destruct H; discriminate. Qed.
Lemma last_end_other : forall w e tr, (forall m, e <> EMark m) -> last_end ((w, e) :: tr) = last_end tr.
Proof. intros w e tr H. cbn [last_end]. destruct e; try reflexivity. now destruct (H m). Qed.
Lemma called_other : forall w e tr, (forall m, e <> EMark m) -> called ((w, e) :: tr) = called tr.
Proof. intros w e tr H. cbn [called]. destruct e; try reflexivity. now destruct (H m). Qed.

(** ** The error of the pipeline *)
Definition herr_ok (p : pos) (tr : log) : Prop :=
  match p with
  | PStart WSesInit => handlers_error tr = None
  | PStart (WLast _) => True
  | PStart _ | PCheck _ | PSkip => handlers_error tr = None
  | PFin e | PWait e => e = handlers_error tr
  | _ => True
  end.
Lemma herr_other : forall w e tr, (forall m, e <> EMark m) -> handlers_error ((w, e) :: tr) = handlers_error tr.
Proof. intros. unfold handlers_error. rewrite last_end_other by assumption. reflexivity. Qed.
Lemma herr_next_before : forall i tr, handlers_error tr = None -> herr_ok (next_before s i) tr.
Proof. intros i tr H. unfold next_before. destruct (_ <? _); cbn; auto. Qed.
Lemma herr_next_after : forall i tr, handlers_error tr = None -> herr_ok (next_after s i) tr.
Proof. intros i tr H. unfold next_after. destruct (_ <? _); cbn; auto. Qed.
Lemma herr_next : forall w tr, handlers_error tr = None -> herr_ok (next s w) tr.
Proof. intros [|i| |i| | |e] tr H; cbn [next]; try exact I; first [apply herr_next_before|apply herr_next_after]; assumption. Qed.
Lemma herr_begin : forall tr, handlers_error tr = None -> herr_ok (begin s) tr.
Proof. intros tr H. unfold begin. destruct (gs_main s); cbn; auto. Qed.
Lemma herr_npos : forall w o tr x, herr_ok (npos w o) ((x, EMark (MEnd w o)) :: tr).
Proof.
  intros w o tr x. assert (E : handlers_error ((x, EMark (MEnd w o)) :: tr) = match o with HRet e => e | HPanic => None end)
    by (unfold handlers_error; cbn; destruct o; reflexivity).
  destruct w; cbn [P_Group.npos]; try exact I; destruct o as [[er|]|]; try exact I; cbn [herr_ok]; auto.
  - apply herr_next_before. exact E.
  - apply herr_begin. exact E.
Qed.
Lemma herr_cstep : forall p e p' x tr, cstep p e p' -> herr_ok p tr -> herr_ok p' ((x, e) :: tr).
Proof.
  intros p e p' x tr C K. destruct C; try exact I.
  - apply herr_npos.
  - cbn [herr_ok] in *. rewrite herr_other by discriminate. congruence.
  - apply herr_next. rewrite herr_other by discriminate. exact K.
  - apply herr_next_after. rewrite herr_other by discriminate. exact K.
  - cbn [herr_ok] in *. rewrite herr_other by discriminate. exact K.
  - cbn [herr_ok] in *. rewrite herr_other by discriminate. exact K.
  - unfold wait_next. destruct (gs_last s); exact I.
Qed.
Lemma herr_still : forall p x e tr, (forall m, e <> EMark m) -> herr_ok p tr -> herr_ok p ((x, e) :: tr).
Proof.
  intros p x e tr H K. destruct p as [w| | | | | | |]; cbn [herr_ok] in *; rewrite ?herr_other by exact H; try assumption.
Qed.
Lemma herr_areach : forall y p, areach y p -> herr_ok p (y_trace y).
Proof.
  intros y p A. induction A as [|y p y' p' A IH St].
  - unfold first_pos. destruct ses; [reflexivity|apply herr_begin; reflexivity].
  - destruct (astep_cases _ _ _ _ St) as [(e & C & -> & _)|(-> & (w & e & O & -> & _) & _)].
    + eapply herr_cstep; eassumption.
    + apply herr_still; [apply other_not_mark; exact O|exact IH].
Qed.

(** ** After the wait *)
Lemma both_combine : forall a b, both a b (combine_err a b).
Proof.
  intros a b. unfold both, combine_err, wrap. split; [intros ->; reflexivity|]. split.
  - intros ->. destruct a; reflexivity.
  - intros x z -> ->. reflexivity.
Qed.
Definition quiet_last (y : sys) (p : pos) : Prop :=
  match p with
  | PStart (WLast e) => idle_list (y_gos y) /\ both (handlers_error (y_trace y)) (first_failure (y_trace y)) e
  | _ => True
  end.
Lemma npos_no_last : forall w o e, npos w o <> PStart (WLast e).
Proof.
  intros w o e. destruct w; cbn [P_Group.npos]; try discriminate; destruct o as [[er|]|]; try discriminate;
    unfold next_before, begin; [destruct (_ <? _)|destruct (gs_main s)]; discriminate.
Qed.
Lemma next_no_last : forall w e, next s w <> PStart (WLast e).
Proof.
  intros w e. destruct w; cbn [next]; unfold next_before, next_after; try discriminate; destruct (_ <? _); discriminate.
Qed.
Lemma quiet_areach : forall y p, areach y p -> quiet_last y p.
Proof.
  intros y p A. induction A as [|y p y' p' A IH St].
  - unfold first_pos, begin. destruct ses; [exact I|]. destruct (gs_main s); exact I.
  - destruct (astep_cases _ _ _ _ St) as [(e & C & Et & Ew & _)|(-> & (w & e & O & Et & _) & Ei)].
    + unfold quiet_last. destruct p' as [w| | | | | | |]; try exact I. destruct w as [| | | | | |er]; try exact I.
      inversion C as [| |w o Ep|w f Ef|w f Ef Ep|f Ef Ep Ee| | | |e0 g Ep Ee Ew'|]; subst.
      * destruct (npos_no_last w o er). assumption.
      * destruct (next_no_last w er). assumption.
      * unfold next_after in *. destruct (_ <? _); discriminate.
      * unfold wait_next in *. destruct (gs_last s); [|discriminate]. inversion Ew'; subst.
        destruct (Ew _ eq_refl) as [Hi ->]. split; [exact Hi|]. rewrite Et, herr_other by discriminate.
        pose proof (herr_areach _ _ A) as Hh. cbn [herr_ok] in Hh. rewrite Hh.
        destruct (err_areach _ _ _ _ _ A) as [He _]. cbn [first_failure].
        rewrite <- He. destruct (h_err (y_sh y)); apply both_combine.
    + unfold quiet_last in *. destruct p as [w'| | | | | | |]; try exact I. destruct w'; try exact I.
      destruct IH as [Hi Hb]. destruct (Ei Hi) as [-> E]. split; [exact Hi|]. rewrite E.
      rewrite herr_other by discriminate. cbn [first_failure]. destruct (first_failure (y_trace y)); exact Hb.
Qed.
(** what the request returns *)
Definition result_is (r : option err) (tr : log) : Prop :=
  (exists e, last_end tr = Some (WLast e, HRet r)) \/
  (exists e, last_end tr = Some (WSesInit, HRet (Some e)) /\ r = new_err (B"path '" ++ path ++ B"': " ++ err_text e)) \/
  (happened (EAct DoAbort) tr /\ r = handlers_error tr) \/
  (gs_last s = None /\ all_gone tr /\ both (handlers_error tr) (first_failure tr) r).
Definition ret_ok (y : sys) (p : pos) : Prop :=
  match p with
  | PRet (RRet r) =>
      (exists e, last_end (y_trace y) = Some (WLast e, HRet r)) \/
      (exists e, last_end (y_trace y) = Some (WSesInit, HRet (Some e)) /\ r = new_err (B"path '" ++ path ++ B"': " ++ err_text e)) \/
      (happened (EAct DoAbort) (y_trace y) /\ r = handlers_error (y_trace y)) \/
      (gs_last s = None /\ idle_list (y_gos y) /\ both (handlers_error (y_trace y)) (first_failure (y_trace y)) r)
  | _ => True
  end.
Lemma happened_mono : forall e w e' tr, happened e tr -> happened e ((w, e') :: tr).
Proof. intros e w e' tr H. apply happened_cons. auto. Qed.
Lemma both_other : forall w e tr r, (forall m, e <> EMark m) -> (forall x, e <> EReturned x) ->
  both (handlers_error tr) (first_failure tr) r -> both (handlers_error ((w, e) :: tr)) (first_failure ((w, e) :: tr)) r.
Proof.
  intros w e tr r Hm Hr Hb. rewrite herr_other by exact Hm. cbn [first_failure].
  destruct (first_failure tr); [exact Hb|]. destruct e; try exact Hb. now destruct (Hr r0).
Qed.
Lemma ret_areach : forall y p, areach y p -> ret_ok y p.
Proof.
  intros y p A. induction A as [|y p y' p' A IH St].
  - unfold first_pos, begin. destruct ses; [exact I|]. destruct (gs_main s); exact I.
  - destruct (astep_cases _ _ _ _ St) as [(e & C & Et & Ew & El)|(-> & (w & e & O & Et & _) & Ei)].
    + unfold ret_ok. destruct p' as [| | | | | |r|]; try exact I. destruct r as [r|]; [|exact I]. rewrite Et.
      inversion C as [| |w o Ep Ee Ew'|w f Ef|w f Ef Ep Ee Ew'|f Ef Ep Ee Ew'| |e0 f Ef| |e0 g Ep Ee Ew'|]; subst.
      * destruct w; cbn [P_Group.npos] in Ew'; destruct o as [[er|]|]; try discriminate Ew'; unfold next_before, begin in Ew';
          try (destruct (_ <? _); discriminate Ew'); try (destruct (gs_main s); discriminate Ew').
        -- right; left. exists er. split; [reflexivity|congruence].
        -- injection Ew' as <-. left. eexists; reflexivity.
        -- injection Ew' as <-. left. eexists; reflexivity.
      * exfalso. destruct w; cbn [next] in Ew'; unfold next_before, next_after in Ew'; try discriminate Ew'; destruct (_ <? _); discriminate Ew'.
      * exfalso. unfold next_after in Ew'. destruct (_ <? _); discriminate Ew'.
      * right; right; left. rewrite herr_other by discriminate. split.
        -- apply happened_mono. apply (flags_areach _ _ _ _ _ A). rewrite <- (El _ eq_refl). assumption.
        -- exact (herr_areach _ _ A).
      * right; right; right. unfold wait_next in Ew'. destruct (gs_last s) eqn:Els; [discriminate|]. injection Ew' as <-.
        destruct (Ew _ eq_refl) as [Hi ->]. split; [reflexivity|]. split; [exact Hi|].
        apply both_other; [discriminate|discriminate|].
        pose proof (herr_areach _ _ A) as Hh. cbn [herr_ok] in Hh. rewrite <- Hh.
        destruct (err_areach _ _ _ _ _ A) as [He _]. rewrite <- He. apply both_combine.
    + unfold ret_ok in *. destruct p as [| | | | | |r|]; try exact I. destruct r as [r|]; [|exact I]. 
      assert (Om : forall m, e <> EMark m) by (apply other_not_mark; exact O).
      destruct IH as [(x & H)|[(x & H & H')|[[H H']|(H1 & H2 & H3)]]].
      * left. exists x. rewrite Et, last_end_other by exact Om. exact H.
      * right; left. exists x. rewrite Et, last_end_other by exact Om. auto.
      * right; right; left. rewrite Et, herr_other by exact Om. split; [apply happened_mono; exact H|exact H'].
      * right; right; right. destruct (Ei H2) as [-> E]. split; [exact H1|]. split; [exact H2|]. rewrite E.
        apply both_other; [discriminate|discriminate|exact H3].
Qed.

(** ** When goroutines outlive the request *)
Definition out_ok (y : sys) (p : pos) : Prop :=
  match p with
  | PStart (WLast _) => late (y_trace y) = 0 -> idle_list (y_gos y)
  | PIn (WLast _) _ => existsb is_last_start (y_trace y) = true /\ (late (y_trace y) = 0 -> idle_list (y_gos y))
  | PRet (RRet _) =>
      happened (EAct DoAbort) (y_trace y) \/ init_failed (y_trace y) \/ (late (y_trace y) = 0 -> idle_list (y_gos y))
  | _ => True
  end.
Lemma late_le : forall x tr, late tr <= late (x :: tr).
Proof. intros x tr. cbn [late]. lia. Qed.
Lemma own_end_gos : forall y p y' p' w o, astep y p y' p' -> y_trace y' = (None, EMark (MEnd w o)) :: y_trace y ->
  idle_list (y_gos y) -> idle_list (y_gos y').
Proof.
  intros y p y' p' w o St E F. destruct St as [h m gs tr e h' o' m' p1 p1' Hc Ps C Ub| | | | | |]; cbn [y_trace y_gos] in *; inversion E; subst.
  inversion Ps; subst. cbn [add]. exact F.
Qed.
Lemma out_areach : forall y p, areach y p -> out_ok y p.
Proof.
  intros y p A. induction A as [|y p y' p' A IH St].
  - unfold first_pos, begin. destruct ses; [exact I|]. destruct (gs_main s); exact I.
  - pose proof (areach_step _ _ _ _ _ _ _ A St) as A'. pose proof (quiet_areach _ _ A') as Q'. pose proof (ret_areach _ _ A') as R'.
    destruct p' as [w'|w' q'| | | | |r|]; try exact I; [destruct w' as [| | | | | |e']; try exact I| |].
    + destruct Q' as [Q' _]. unfold out_ok. auto.
    + destruct w' as [| | | | | |e']; try exact I. clear A' Q' R'. remember (PIn (WLast e') q') as pp eqn:Epp.
      destruct St as [h m gs tr e h' o m' p1 p1' Hc Ps C Ub| | | | | |]; subst.
      * inversion C as [w Rw Ep|w q0 e0 q0' Ue Ep|w o0 Ep Ee Ep'|w f Ef|w f Ef Ep Ee Ep'|f Ef Ep Ee Ep'| | | |e0 g Ep Ee Ep'|]; subst.
        -- cbn [out_ok y_trace y_gos]. split; [reflexivity|]. intros _. destruct (quiet_areach _ _ A) as [Q _].
           inversion Ps; subst; cbn [add]; exact Q.
        -- cbn [out_ok y_trace y_gos] in *. destruct IH as [L IH]. split; [cbn [existsb]; rewrite L; apply orb_true_r|].
           cbn [late]. rewrite L, andb_true_r. destruct (pstep_go _ _ _ _ _ _ _ Ps) as [Ho _].
           unfold is_go. cbn [snd]. destruct o as [b|].
           ++ rewrite (proj2 Ho) by discriminate. lia.
           ++ cbn [add]. intros H. apply IH. lia.
        -- exfalso. destruct w; cbn [P_Group.npos] in Ep'; destruct o0 as [[er|]|]; try discriminate Ep'; unfold next_before, begin in Ep';
             try (destruct (_ <? _); discriminate Ep'); try (destruct (gs_main s); discriminate Ep').
        -- exfalso. destruct w; cbn [next] in Ep'; unfold next_before, next_after in Ep'; try discriminate Ep'; destruct (_ <? _); discriminate Ep'.
        -- exfalso. unfold next_after in Ep'. destruct (_ <? _); discriminate Ep'.
        -- exfalso. unfold wait_next in Ep'. destruct (gs_last s); discriminate Ep'.
      * cbn [out_ok y_trace y_gos] in *. destruct IH as [L IH]. split; [cbn [existsb]; rewrite L; apply orb_true_r|]. intros K.
        exfalso. assert (K0 : late tr = 0) by (pose proof (late_le (Some (length g1), e) tr); lia). specialize (IH K0). apply idle_mid in IH. discriminate.
      * cbn [out_ok y_trace y_gos] in *. destruct IH as [L IH]. split; [cbn [existsb]; rewrite L; apply orb_true_r|]. intros K.
        exfalso. assert (K0 : late tr = 0) by (pose proof (late_le (Some (length g1), EReturned e) tr); lia). specialize (IH K0). apply idle_mid in IH. discriminate.
      * cbn [out_ok y_trace y_gos] in *. destruct IH as [L IH]. split; [cbn [existsb]; rewrite L; apply orb_true_r|]. intros K.
        exfalso. assert (K0 : late tr = 0) by (pose proof (late_le (Some (length g1), EPanic) tr); lia). specialize (IH K0). apply idle_mid in IH. discriminate.
      * cbn [out_ok y_trace y_gos] in *. destruct IH as [L IH]. split; [cbn [existsb]; rewrite L; apply orb_true_r|]. intros K.
        exfalso. assert (K0 : late tr = 0) by (pose proof (late_le (Some (length g1), EGone) tr); lia). specialize (IH K0). apply idle_mid in IH. discriminate.
      * cbn [out_ok y_trace y_gos] in *. destruct IH as [L IH]. split; [cbn [existsb]; rewrite L; apply orb_true_r|]. intros K.
        exfalso. assert (K0 : late tr = 0) by (pose proof (late_le (Some (length g1), EGone) tr); lia). specialize (IH K0). apply idle_mid in IH. discriminate.
      * cbn [out_ok y_trace y_gos] in *. destruct IH as [L IH]. split; [cbn [existsb]; rewrite L; apply orb_true_r|]. intros K. apply IH. exact K.
    + destruct r as [r|]; [|exact I]. unfold ret_ok in R'. unfold out_ok.
      destruct (astep_cases _ _ _ _ St) as [(e & C & Et & Ew & El)|(Ep0 & (w & e & O & Et & _) & Ei)].
      * inversion C as [| |w o Ep Ee Ep'|w f Ef|w f Ef Ep Ee Ep'|f Ef Ep Ee Ep'| |e0 f Ef| |e0 g Ep Ee Ep'|]; subst.
        -- destruct w; cbn [P_Group.npos] in Ep'; destruct o as [[er|]|]; try discriminate Ep'; unfold next_before, begin in Ep';
             try (destruct (_ <? _); discriminate Ep'); try (destruct (gs_main s); discriminate Ep').
           ++ right; left. exists er. rewrite Et. exists None. left. reflexivity.
           ++ cbn [out_ok] in IH. destruct IH as [_ IH]. right; right. rewrite Et. cbn [late is_go snd andb]. intros H.
              exact (own_end_gos _ _ _ _ _ _ St Et (IH H)).
           ++ cbn [out_ok] in IH. destruct IH as [_ IH]. right; right. rewrite Et. cbn [late is_go snd andb]. intros H.
              exact (own_end_gos _ _ _ _ _ _ St Et (IH H)).
        -- exfalso. destruct w; cbn [next] in Ep'; unfold next_before, next_after in Ep'; try discriminate Ep'; destruct (_ <? _); discriminate Ep'.
        -- exfalso. unfold next_after in Ep'. destruct (_ <? _); discriminate Ep'.
        -- left. rewrite Et. apply happened_mono. apply (flags_areach _ _ _ _ _ A). rewrite <- (El _ eq_refl). assumption.
        -- right; right. intros _. apply (Ew _ eq_refl).
      * subst p. cbn [out_ok] in IH. destruct IH as [H|[(x & H)|H]].
        -- left. rewrite Et. apply happened_mono. exact H.
        -- right; left. exists x. rewrite Et. apply happened_mono. exact H.
        -- right; right. intros L. assert (L0 : late (y_trace y) = 0) by (rewrite Et in L; pose proof (late_le (w, e) (y_trace y)); lia).
           destruct (Ei (H L0)) as [-> _]. exact (H L0).
Qed.

(** ** The checks between handlers *)
Definition checked_after (w0 : who) : bool := match w0 with WInit | WSesInit => false | _ => true end.
Definition no_stop (tr : log) : Prop :=
  forall w0 o, last_end tr = Some (w0, o) -> checked_after w0 = true ->
  ~ happened (EAct DoStop) (before_end tr) /\ ~ happened (EAct DoAbort) (before_end tr).
Definition chk_ok (p : pos) (tr : log) : Prop :=
  match p with
  | PStart (WLast _) | PWait _ => ~ happened (EAct DoAbort) (before_end tr)
  | PStart WMain => no_stop tr /\ ~ happened (EAct DoSkip) (before_end tr)
  | PStart _ | PSkip => no_stop tr
  | _ => True
  end.
Lemma before_end_other : forall w e tr, (forall m, e <> EMark m) -> before_end ((w, e) :: tr) = before_end tr.
Proof. intros w e tr H. cbn [before_end]. destruct e; try reflexivity. now destruct (H m). Qed.
Lemma before_end_incl : forall tr x, In x (before_end tr) -> In x tr.
Proof.
  induction tr as [|[w e] tr IH]; intros x H; [destruct H|]. cbn [before_end] in H.
  destruct e as [[?|? ?|?]| | | | | | | | | | | |]; right; auto.
Qed.
Lemma before_end_happened : forall e tr, happened e (before_end tr) -> happened e tr.
Proof. intros e tr (w & H). exists w. apply before_end_incl. exact H. Qed.
Lemma no_stop_other : forall w e tr, (forall m, e <> EMark m) -> no_stop tr -> no_stop ((w, e) :: tr).
Proof. intros w e tr H K. unfold no_stop. rewrite last_end_other, before_end_other by exact H. exact K. Qed.
Lemma no_stop_look : forall tr, ~ happened (EAct DoStop) tr -> ~ happened (EAct DoAbort) tr -> no_stop tr.
Proof. intros tr H1 H2 w0 o _ _. split; intros K; apply before_end_happened in K; auto. Qed.
Lemma no_stop_unchecked : forall tr w o x, checked_after w = false -> no_stop ((x, EMark (MEnd w o)) :: tr).
Proof. intros tr w o x H w0 o0 E K. cbn in E. injection E as <- <-. congruence. Qed.
Lemma chk_next_before : forall i tr, no_stop tr -> chk_ok (next_before s i) tr.
Proof. intros i tr H. unfold next_before. destruct (_ <? _); exact H. Qed.
Lemma chk_next_after : forall i tr, no_stop tr -> chk_ok (next_after s i) tr.
Proof. intros i tr H. unfold next_after. destruct (_ <? _); [exact H|exact I]. Qed.
Lemma chk_next : forall w tr, no_stop tr -> chk_ok (next s w) tr.
Proof. intros w tr H. destruct w; cbn [next]; try exact I; first [apply chk_next_before|apply chk_next_after]; exact H. Qed.
Lemma no_stop_nil : no_stop [].
Proof. intros w o H. discriminate. Qed.
Lemma chk_begin : forall tr, no_stop tr -> chk_ok (begin s) tr.
Proof. intros tr H. unfold begin. destruct (gs_main s); [exact H|exact I]. Qed.
Lemma chk_areach : forall y p, areach y p -> chk_ok p (y_trace y).
Proof.
  intros y p A. induction A as [|y p y' p' A IH St].
  - unfold first_pos. destruct ses; [exact no_stop_nil|apply chk_begin; exact no_stop_nil].
  - destruct (astep_cases _ _ _ _ St) as [(e & C & -> & _ & El)|(-> & (w & e & O & -> & _) & Ei)].
    + destruct (flags_areach _ _ _ _ _ A) as (F1 & F2 & F3).
      destruct C as [w R|w q e q' Ue|w o|w f Ef|w f Ef|f Ef|f Ef|e f Ef|e f Ef|e g|r]; try exact I.
      * destruct w; cbn [P_Group.npos]; destruct o as [[er|]|]; try exact I.
        -- apply chk_next_before. apply no_stop_unchecked. reflexivity.
        -- apply chk_begin. apply no_stop_unchecked. reflexivity.
      * apply chk_next. apply no_stop_other; [discriminate|]. rewrite (El _ eq_refl) in Ef. apply orb_false_elim in Ef. destruct Ef as [Ea Es].
        apply no_stop_look; intros H; [apply F1 in H|apply F2 in H]; congruence.
      * apply chk_next_after. apply no_stop_other; [discriminate|]. exact IH.
      * cbn [chk_ok]. split; [apply no_stop_other; [discriminate|exact IH]|]. rewrite before_end_other by discriminate.
        intros H. apply before_end_happened in H. apply F3 in H. rewrite <- (El _ eq_refl) in H. congruence.
      * cbn [chk_ok]. rewrite before_end_other by discriminate.
        intros H. apply before_end_happened in H. apply F2 in H. rewrite <- (El _ eq_refl) in H. congruence.
      * unfold wait_next. destruct (gs_last s); [|exact I]. cbn [chk_ok] in *. rewrite before_end_other by discriminate. exact IH.
    + assert (Om : forall m, e <> EMark m) by (apply other_not_mark; exact O).
      destruct p as [w'| | | | | | |]; try exact I; [destruct w'| |]; cbn [chk_ok] in *;
        rewrite ?before_end_other by exact Om; try assumption; try (apply no_stop_other; assumption).
      destruct IH. split; [apply no_stop_other; assumption|assumption].
Qed.
End Ctl.
