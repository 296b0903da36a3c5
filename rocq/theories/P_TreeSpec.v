(** Consequences of the reference semantics (C01, C02, C03, C77) and invariants
    of arbitrary trees (C09, C11). *)
From Verif Require Import Base GoStrings M_Tree S_Route P_TreeFind P_TreeRep.

Section Spec.
  Context {HS : Type}.
  Implicit Types (n : node HS) (a : args) (tbl : list (entry HS)) (e : entry HS).

  Definition cons_seg (g : seg) (e : entry HS) : entry HS := (g :: fst e, snd e).
  Definition ungroup (gs : list (seg * list (entry HS))) : list (entry HS) :=
    flat_map (fun ga => map (cons_seg (fst ga)) (snd ga)) gs.
  Definition nonroot (e : entry HS) : bool := negb (is_empty (fst e)).

  Lemma same_lit_eq g h : same_lit g h = true -> g = h.
  Proof.
    destruct g, h; simpl; try discriminate. intros H. apply beq_eq in H. congruence.
  Qed.

  Lemma ins_alt_cases h (e : entry HS) gs :
    (exists A1 tb A2, gs = A1 ++ (h, tb) :: A2 /\ ins_alt h e gs = A1 ++ (h, tb ++ [e]) :: A2
                      /\ same_lit h h = true)
    \/ ins_alt h e gs = gs ++ [(h, [e])].
  Proof.
    induction gs as [|[g tb] gs IH]; simpl; [right; reflexivity|].
    destruct (same_lit h g) eqn:E.
    - left. pose proof (same_lit_eq _ _ E) as ->. exists [], tb, gs. auto.
    - destruct IH as [(A1 & tb' & A2 & -> & -> & Hs)| ->].
      + left. exists ((g, tb) :: A1), tb', A2. auto.
      + right. reflexivity.
  Qed.

  Lemma ungroup_ins h e gs :
    Permutation (ungroup (ins_alt h e gs)) (ungroup gs ++ [cons_seg h e]).
  Proof.
    destruct (ins_alt_cases h e gs) as [(A1 & tb & A2 & -> & -> & _)| ->]; unfold ungroup.
    - rewrite !flat_map_app. simpl. rewrite map_app. simpl. rewrite <- !app_assoc.
      apply Permutation_app_head, Permutation_app_head.
      apply Permutation_app_comm.
    - rewrite flat_map_app. simpl. reflexivity.
  Qed.

  Lemma ungroup_alternatives tbl :
    Permutation (ungroup (alternatives tbl)) (filter nonroot tbl).
  Proof.
    induction tbl as [|[[|h t] v] tbl IH] using rev_ind; [reflexivity| |];
      rewrite alternatives_snoc, filter_app; simpl.
    - rewrite app_nil_r. exact IH.
    - rewrite ungroup_ins. apply Permutation_app_tail. exact IH.
  Qed.

  Lemma alternatives_nonempty tbl :
    Forall (fun ga => snd ga <> []) (alternatives tbl).
  Proof.
    induction tbl as [|[[|h t] v] tbl IH] using rev_ind; [constructor| |];
      rewrite alternatives_snoc; simpl; [exact IH|].
    destruct (ins_alt_cases h (t, v) (alternatives tbl)) as [(A1 & tb & A2 & E & -> & _)| ->].
    - rewrite E in IH. apply Forall_app in IH as [I1 I2]. inversion I2; subst.
      apply Forall_app. split; [assumption|]. constructor; [|assumption].
      simpl. destruct tb; discriminate.
    - apply Forall_app. split; [exact IH|]. repeat constructor. discriminate.
  Qed.

  Lemma alternatives_In tbl g tb e :
    In (g, tb) (alternatives tbl) -> In e tb -> In (cons_seg g e) tbl.
  Proof.
    intros H1 H2.
    assert (In (cons_seg g e) (ungroup (alternatives tbl))) as H.
    { apply in_flat_map. exists (g, tb). split; [exact H1|]. apply in_map. exact H2. }
    apply (Permutation_in _ (ungroup_alternatives tbl)) in H.
    apply filter_In in H. tauto.
  Qed.

  (** ** Soundness *)
  Lemma endpoints_sound path : forall tbl b hs b' v,
    In (hs, b') (endpoints path tbl b) -> In v hs ->
    exists pat, In (pat, v) tbl /\ fits pat path /\ b' = b ++ bindings pat path.
  Proof.
    induction path as [|x path IH]; intros tbl b hs b' v Hin Hv; cbn [endpoints] in Hin.
    - destruct Hin as [E|[]]. injection E as <- <-.
      apply in_flat_map in Hv as [[[|g p] w] [Hw Hx]]; simpl in Hx; [|contradiction].
      destruct Hx as [<-|[]]. exists []. split; [exact Hw|].
      split; [constructor|]. rewrite app_nil_r. reflexivity.
    - apply in_flat_map in Hin as [[g tb] [Hg Hin]]. cbn [fst snd] in Hin.
      destruct (seg_fits g x) eqn:Hf; [|contradiction].
      destruct (IH _ _ _ _ _ Hin Hv) as (pat & Hp & Hfit & ->).
      exists (g :: pat). split; [exact (alternatives_In _ _ _ _ Hg Hp)|].
      split; [constructor; assumption|].
      rewrite <- app_assoc. f_equal. destruct g; reflexivity.
  Qed.

  Lemma answer_In m hs (s : HS) :
    answer m hs = Some s -> exists rm, In (rm, s) hs /\ covers rm m = true.
  Proof.
    unfold answer. destruct (find _ (rev hs)) as [[rm s']|] eqn:E; [|discriminate].
    intros H. injection H as ->. apply find_some in E as [E1 E2].
    exists rm. split; [apply in_rev; exact E1|exact E2].
  Qed.

  Lemma ref_find_sound tbl m path s b :
    ref_find tbl m path = (TFound s, b) ->
    exists pat rm, In (pat, (rm, s)) tbl /\ covers rm m = true /\ fits pat path
                   /\ b = bindings pat path.
  Proof.
    unfold ref_find. destruct (endpoints path tbl []) as [|[hs b'] l] eqn:E; [discriminate|].
    destruct (answer m hs) as [s'|] eqn:Ea; [|discriminate].
    intros H. injection H as -> ->.
    apply answer_In in Ea as (rm & Hin & Hc).
    destruct (endpoints_sound path tbl [] hs b (rm, s)) as (pat & H1 & H2 & H3).
    - rewrite E. left. reflexivity.
    - exact Hin.
    - exists pat, rm. auto.
  Qed.

  (** ** Entries whose prefix does not fit contribute nothing *)
  Lemma prefix_fits_nil pat : prefix_fits pat [].
  Proof. exists [], pat. split; [reflexivity|constructor]. Qed.

  Lemma prefix_fits_cons g pat x path :
    prefix_fits (g :: pat) (x :: path) <-> seg_fits g x = true /\ prefix_fits pat path.
  Proof.
    split.
    - intros (p1 & p2 & E & F). inversion F as [|g' x' p1' path' Hg F']; subst.
      injection E as -> ->. split; [exact Hg|]. exists p1', p2. auto.
    - intros (Hg & p1 & p2 & -> & F). exists (g :: p1), p2. split; [reflexivity|].
      constructor; assumption.
  Qed.

  Lemma endpoints_nofit path : forall tbl b,
    tbl <> [] -> (forall e, In e tbl -> ~ prefix_fits (fst e) path) ->
    endpoints path tbl b = [].
  Proof.
    induction path as [|x path IH]; intros tbl b Hne Hno.
    - destruct tbl as [|e tbl]; [contradiction|].
      exfalso. apply (Hno e); [left; reflexivity|]. apply prefix_fits_nil.
    - cbn [endpoints].
      assert (forall gs, incl gs (alternatives tbl) ->
        flat_map (fun ga => if seg_fits (fst ga) x
                            then endpoints path (snd ga) (b ++ bind (fst ga) x) else []) gs = [])
        as H; [|apply H, incl_refl].
      induction gs as [|[g tb] gs IHg]; intros Hi; [reflexivity|]. cbn [flat_map fst snd].
      rewrite IHg by (intros y Hy; apply Hi; right; exact Hy). rewrite app_nil_r.
      destruct (seg_fits g x) eqn:Hf; [|reflexivity].
      assert (Hin : In (g, tb) (alternatives tbl)) by (apply Hi; left; reflexivity).
      apply IH.
      + pose proof (alternatives_nonempty tbl) as HN. rewrite Forall_forall in HN.
        exact (HN _ Hin).
      + intros e He Hp. apply (Hno (cons_seg g e) (alternatives_In _ _ _ _ Hin He)).
        simpl. apply prefix_fits_cons. auto.
  Qed.

  (** ** Completeness for an unambiguous entry *)
  Lemma endpoints_unique path : forall tbl b pat v others,
    Permutation tbl ((pat, v) :: others) ->
    fits pat path -> (forall e, In e others -> ~ prefix_fits (fst e) path) ->
    endpoints path tbl b = [([v], b ++ bindings pat path)].
  Proof.
    induction path as [|x path IH]; intros tbl b pat v others HP Hfit Hno.
    - destruct others as [|e others].
      + apply Permutation_sym, Permutation_length_1_inv in HP. subst tbl.
        inversion Hfit; subst. simpl. rewrite app_nil_r. reflexivity.
      + exfalso. apply (Hno e); [left; reflexivity|apply prefix_fits_nil].
    - inversion Hfit as [|g x' pat' path' Hg Hfit']; subst.
      pose proof (ungroup_alternatives tbl) as HU.
      assert (HF : Permutation (filter nonroot tbl) (cons_seg g (pat', v) :: filter nonroot others)).
      { assert (forall l1 l2 : list (entry HS), Permutation l1 l2 ->
                  Permutation (filter nonroot l1) (filter nonroot l2)) as PF.
        { induction 1; simpl; repeat (destruct (nonroot _)); auto.
          - constructor. - etransitivity; eassumption. }
        apply PF in HP. simpl in HP. exact HP. }
      rewrite HF in HU. clear HF.
      assert (Hin : In (cons_seg g (pat', v)) (ungroup (alternatives tbl))).
      { eapply Permutation_in; [apply Permutation_sym; exact HU|left; reflexivity]. }
      unfold ungroup in Hin. apply in_flat_map in Hin as [[g' tb] [Hgt Hin]].
      cbn [fst snd] in Hin. apply in_map_iff in Hin as [[p' v'] [He Hin]].
      unfold cons_seg in He. cbn [fst snd] in He. injection He as -> -> ->.
      apply in_split in Hgt as (A1 & A2 & HA).
      apply in_split in Hin as (t1 & t2 & Ht). subst tb.
      rewrite HA in HU. unfold ungroup in HU. rewrite flat_map_app in HU.
      cbn [flat_map fst snd] in HU. rewrite map_app in HU. cbn [map] in HU.
      rewrite <- !app_assoc in HU. cbn [app] in HU.
      rewrite app_assoc in HU.
      apply Permutation_sym, Permutation_cons_app_inv in HU.
      assert (Hoth : forall e, In e (flat_map (fun ga => map (cons_seg (fst ga)) (snd ga)) A1)
                 \/ In e (map (cons_seg g) t1) \/ In e (map (cons_seg g) t2)
                 \/ In e (flat_map (fun ga => map (cons_seg (fst ga)) (snd ga)) A2) ->
                 ~ prefix_fits (fst e) (x :: path)).
      { intros e He. apply Hno.
        assert (In e (filter nonroot others)) as HI.
        { eapply Permutation_in; [apply Permutation_sym; exact HU|].
          rewrite !in_app_iff. tauto. }
        apply filter_In in HI. tauto. }
      assert (Hside : forall A, (forall ga, In ga A -> snd ga <> []) ->
                (forall e, In e (flat_map (fun ga => map (cons_seg (fst ga)) (snd ga)) A) ->
                           ~ prefix_fits (fst e) (x :: path)) ->
                flat_map (fun ga => if seg_fits (fst ga) x
                   then endpoints path (snd ga) (b ++ bind (fst ga) x) else []) A = []).
      { induction A as [|[g1 tb] A IHA]; intros HN HX; [reflexivity|].
        cbn [flat_map fst snd]. rewrite IHA.
        - rewrite app_nil_r. destruct (seg_fits g1 x) eqn:Hf; [|reflexivity].
          apply endpoints_nofit.
          + exact (HN _ (or_introl eq_refl)).
          + intros e He Hp. apply (HX (cons_seg g1 e)).
            * cbn [flat_map fst snd]. apply in_app_iff. left. apply in_map. exact He.
            * apply prefix_fits_cons. auto.
        - intros ga Hga. apply HN. right. exact Hga.
        - intros e He. apply HX. cbn [flat_map]. apply in_app_iff. right. exact He. }
      pose proof (alternatives_nonempty tbl) as HN. rewrite Forall_forall in HN.
      rewrite HA in HN.
      cbn [endpoints]. rewrite HA, flat_map_app. cbn [flat_map fst snd].
      rewrite (Hside A1), (Hside A2).
      + rewrite app_nil_r. cbn [app]. rewrite Hg.
        etransitivity; [apply (IH (t1 ++ (pat', v) :: t2) (b ++ bind g x) pat' v (t1 ++ t2))|].
        * apply Permutation_sym, Permutation_middle.
        * exact Hfit'.
        * intros e He Hp. apply in_app_iff in He.
          apply (Hoth (cons_seg g e)); [|apply prefix_fits_cons; auto].
          destruct He as [He|He]; [right; left|right; right; left]; apply in_map; exact He.
        * rewrite <- app_assoc. destruct g; reflexivity.
      + intros ga Hga. apply HN. apply in_app_iff. right. right. exact Hga.
      + intros e He. apply Hoth. auto.
      + intros ga Hga. apply HN. apply in_app_iff. left. exact Hga.
      + intros e He. apply Hoth. auto.
  Qed.

  (** ** Frame: a late entry whose prefix does not fit changes nothing *)
  Lemma endpoints_frame path : forall tbl b e,
    ~ prefix_fits (fst e) path ->
    endpoints path (tbl ++ [e]) b = endpoints path tbl b.
  Proof.
    induction path as [|x path IH]; intros tbl b e Hno.
    - exfalso. apply Hno, prefix_fits_nil.
    - cbn [endpoints]. rewrite alternatives_snoc.
      destruct e as [[|h t] v]; cbn [step_alt]; [reflexivity|]. cbn [fst] in Hno.
      rewrite prefix_fits_cons in Hno.
      destruct (ins_alt_cases h (t, v) (alternatives tbl)) as [(A1 & tb & A2 & E & -> & _)| ->].
      + rewrite E, !flat_map_app. cbn [flat_map fst snd]. f_equal. f_equal.
        destruct (seg_fits h x) eqn:Hf; [|reflexivity].
        apply IH. simpl. tauto.
      + rewrite flat_map_app. cbn [flat_map fst snd].
        destruct (seg_fits h x) eqn:Hf.
        * rewrite endpoints_nofit; [rewrite !app_nil_r; reflexivity|discriminate|].
          intros e [<-|[]]. simpl. tauto.
        * rewrite !app_nil_r. reflexivity.
  Qed.

  (** a late entry starting with a parameter never changes a decided request *)
  Lemma endpoints_late_par path tbl b e :
    (match fst e with Par _ :: _ => True | _ => False end) ->
    path <> [] ->
    exists R, endpoints path (tbl ++ [e]) b = endpoints path tbl b ++ R.
  Proof.
    destruct e as [[|[s|nm] t] v]; simpl; try contradiction. intros _ Hp.
    destruct path as [|x path]; [contradiction|].
    cbn [endpoints]. rewrite alternatives_snoc. cbn [step_alt].
    rewrite ins_alt_par, flat_map_app. eexists. reflexivity.
  Qed.

  (** ** Literal tables *)
  Definition all_lit tbl : Prop := Forall (fun e => forallb is_lit (fst e) = true) tbl.
  Definition group (x : bytes) tbl : list (entry HS) :=
    flat_map (fun e => match fst e with
                       | Lit s :: t => if beq s x then [(t, snd e)] else []
                       | _ => []
                       end) tbl.

  Lemma group_snoc x tbl e :
    group x (tbl ++ [e]) = group x tbl ++ group x [e].
  Proof. unfold group. rewrite flat_map_app. reflexivity. Qed.

  Lemma group_one x e :
    group x [e] = match fst e with
                  | Lit s :: t => if beq s x then [(t, snd e)] else []
                  | _ => []
                  end.
  Proof. unfold group. cbn [flat_map]. rewrite app_nil_r. reflexivity. Qed.

  Lemma filter_ins x s t (v : bytes * HS) gs :
    filter (fun ga => seg_fits (fst ga) x) (ins_alt (Lit s) (t, v) gs)
    = if beq s x
      then ins_alt (Lit s) (t, v) (filter (fun ga => seg_fits (fst ga) x) gs)
      else filter (fun ga => seg_fits (fst ga) x) gs.
  Proof.
    induction gs as [|[g tb] gs IH]; cbn [ins_alt filter fst seg_fits].
    - destruct (beq s x); reflexivity.
    - destruct (same_lit (Lit s) g) eqn:E.
      + apply same_lit_eq in E. subst g. cbn [filter fst seg_fits].
        destruct (beq s x) eqn:Ex; [|reflexivity].
        cbn [ins_alt same_lit]. rewrite beq_refl. reflexivity.
      + cbn [filter fst]. rewrite IH.
        destruct (seg_fits g x), (beq s x); try reflexivity.
        cbn [ins_alt]. rewrite E. reflexivity.
  Qed.

  Lemma alternatives_lit x tbl :
    all_lit tbl ->
    filter (fun ga => seg_fits (fst ga) x) (alternatives tbl)
    = match group x tbl with [] => [] | g => [(Lit x, g)] end.
  Proof.
    induction tbl as [|[p v] tbl IH] using rev_ind; intros Hl; [reflexivity|].
    apply Forall_app in Hl as [Hl He]. inversion He as [|? ? Hp _]; subst. simpl in Hp.
    specialize (IH Hl). rewrite alternatives_snoc, group_snoc.
    destruct p as [|[s|nm] t]; cbn [step_alt].
    - simpl. rewrite app_nil_r. exact IH.
    - rewrite filter_ins, IH.
      rewrite group_one. cbn [fst snd].
      destruct (beq_spec s x) as [->|Hne].
      + destruct (group x tbl); cbn [ins_alt same_lit app].
        * reflexivity.
        * rewrite beq_refl. reflexivity.
      + rewrite !app_nil_r. reflexivity.
    - discriminate.
  Qed.

  Lemma all_lit_group x tbl : all_lit tbl -> all_lit (group x tbl).
  Proof.
    intros H. apply Forall_forall. intros [p v] Hin.
    apply in_flat_map in Hin as [[q w] [Hq Hin]]. unfold all_lit in H.
    rewrite Forall_forall in H. specialize (H _ Hq). cbn [fst] in *.
    destruct q as [|[s|nm] t]; try contradiction.
    destruct (beq s x); [|contradiction]. destruct Hin as [E|[]]. injection E as <- <-.
    simpl in H. exact H.
  Qed.

  Definition seg_eqb (g h : seg) : bool :=
    match g, h with
    | Lit a, Lit b => beq a b
    | Par a, Par b => beq a b
    | _, _ => false
    end.
  Definition at_path (path : list bytes) tbl : list (bytes * HS) :=
    flat_map (fun e => if forallb is_lit (fst e) && (length (fst e) =? length path)%nat
                          && forallb (fun gx => seg_fits (fst gx) (snd gx)) (combine (fst e) path)
                       then [snd e] else []) tbl.

  Lemma endpoints_lit path : forall tbl b,
    all_lit tbl ->
    endpoints path tbl b = [(at_path path tbl, b)] \/
    (endpoints path tbl b = [] /\ at_path path tbl = []).
  Proof.
    induction path as [|x path IH]; intros tbl b Hl.
    - left. cbn [endpoints]. f_equal. f_equal. unfold at_path.
      clear b. induction tbl as [|[p v] tbl IHt]; [reflexivity|].
      inversion Hl as [|? ? Hp Hl']; subst. simpl. rewrite IHt by exact Hl'.
      destruct p; simpl; [reflexivity|]. rewrite andb_false_r. reflexivity.
    - cbn [endpoints].
      rewrite <- flat_map_filter with (f := fun ga => seg_fits (fst ga) x)
        (g := fun ga => endpoints path (snd ga) (b ++ bind (fst ga) x)).
      rewrite alternatives_lit by exact Hl.
      assert (E : at_path (x :: path) tbl = at_path path (group x tbl)).
      { unfold at_path, group. clear IH. induction tbl as [|[p v] tbl IHt]; [reflexivity|].
        inversion Hl as [|? ? Hp Hl']; subst. cbn [fst] in Hp.
        cbn [flat_map]. rewrite flat_map_app, IHt by exact Hl'. f_equal.
        cbn [fst snd]. destruct p as [|[s|nm] t]; [reflexivity| |discriminate].
        simpl in Hp. cbn [forallb is_lit combine fst snd seg_fits length].
        destruct (beq s x) eqn:Ex; simpl; rewrite Hp; simpl.
        - rewrite app_nil_r. reflexivity.
        - rewrite andb_false_r. reflexivity. }
      rewrite E. destruct (group x tbl) as [|g0 gs] eqn:G.
      + right. split; reflexivity.
      + cbn [flat_map fst snd bind]. rewrite !app_nil_r.
        apply IH. rewrite <- G. apply all_lit_group. exact Hl.
  Qed.
End Spec.

(** ** Literal routers, in terms of the registrations *)
Section Literal.
  Context {HS : Type}.

  Lemma lit_segments route :
    literal_routeb route = true -> pattern_of route = map Lit (segments route).
  Proof.
    unfold literal_routeb, pattern_of. rewrite andb_true_iff. intros [_ H].
    induction (segments route) as [|p l IH]; [reflexivity|]. simpl in *.
    apply andb_true_iff in H as [H1 H2]. rewrite IH by exact H2. f_equal.
    destruct (seg_of p) eqn:E; [|discriminate]. apply seg_of_lit in E. congruence.
  Qed.

  Lemma lit_match_eq segs path :
    (length (map Lit segs) =? length path)%nat
      && forallb (fun gx => seg_fits (fst gx) (snd gx)) (combine (map Lit segs) path)
    = same_segs segs path.
  Proof.
    unfold same_segs. destruct (list_eq_dec (list_eq_dec ascii_dec) segs path) as [->|Hne].
    - rewrite map_length, Nat.eqb_refl. simpl.
      induction path; simpl; [reflexivity|]. rewrite beq_refl. exact IHpath.
    - revert path Hne. induction segs as [|s segs IH]; intros [|x path] Hne; simpl;
        try reflexivity; [contradiction|].
      destruct (beq_spec s x) as [->|H]; simpl.
      + apply IH. congruence.
      + apply andb_false_r.
  Qed.

  Lemma forallb_lit segs : forallb is_lit (map Lit segs) = true.
  Proof. induction segs; simpl; auto. Qed.

  Lemma find_flat_map_rev {A C} (f : C -> bool) (sel : A -> bool) (pr : A -> C) l :
    find f (rev (flat_map (fun a => if sel a then [pr a] else []) l))
    = match find (fun a => sel a && f (pr a)) (rev l) with Some a => Some (pr a) | None => None end.
  Proof.
    induction l as [|a l IH] using rev_ind; [reflexivity|].
    rewrite flat_map_app, !rev_app_distr. simpl.
    destruct (sel a) eqn:Es; simpl.
    - destruct (f (pr a)); [reflexivity|exact IH].
    - exact IH.
  Qed.

  Lemma find_ext {A} (f g : A -> bool) l : (forall a, In a l -> f a = g a) -> find f l = find g l.
  Proof.
    induction l as [|a l IH]; intros H; [reflexivity|]. simpl.
    rewrite (H a) by (left; reflexivity). destruct (g a); [reflexivity|].
    apply IH. intros. apply H. right. assumption.
  Qed.

  Theorem literal_find (regs : list (reg HS)) m path io :
    forallb (fun r => literal_routeb (r_route r)) regs = true ->
    tree_find (routed regs) m path io
    = match latest (fun r => same_segs (segments (r_route r)) (segments path)
                             && covers (r_method r) m) regs with
      | Some r => (TFound (r_set r), [])
      | None => (TNotFound, [])
      end.
  Proof.
    intros Hl. rewrite tree_find_ref.
    2:{ rewrite forallb_forall in *. intros r Hr. specialize (Hl r Hr).
        unfold literal_routeb in Hl. apply andb_true_iff in Hl. tauto. }
    assert (HA : all_lit (map entry_of regs)).
    { apply Forall_forall. intros e He. apply in_map_iff in He as [r [<- Hr]].
      rewrite forallb_forall in Hl. specialize (Hl r Hr). unfold entry_of. simpl.
      rewrite lit_segments by exact Hl. apply forallb_lit. }
    assert (HS' : at_path (segments path) (map entry_of regs)
      = flat_map (fun r => if same_segs (segments (r_route r)) (segments path)
                           then [(r_method r, r_set r)] else []) regs).
    { unfold at_path. clear HA. induction regs as [|r regs IH]; [reflexivity|].
      simpl in Hl. apply andb_true_iff in Hl as [H1 H2].
      cbn [map flat_map]. rewrite IH by exact H2. f_equal.
      unfold entry_of. cbn [fst snd]. rewrite lit_segments by exact H1.
      rewrite forallb_lit, andb_true_l, lit_match_eq. reflexivity. }
    unfold ref_find.
    destruct (endpoints_lit (segments path) (map entry_of regs) [] HA) as [E|[E E0]]; rewrite E.
    - unfold answer. rewrite HS', find_flat_map_rev. unfold latest. cbn [fst].
      destruct (find _ (rev regs)) as [r|]; reflexivity.
    - rewrite HS' in E0. unfold latest.
      pose proof (find_flat_map_rev (fun e => covers (fst e) m)
        (fun r => same_segs (segments (r_route r)) (segments path))
        (fun r => (r_method r, r_set r)) regs) as F.
      cbv beta in F; rewrite E0 in F. cbn [rev find fst] in F.
      destruct (find _ (rev regs)); [discriminate|reflexivity].
  Qed.
End Literal.

(** ** Arbitrary trees: where returned sets and parameters come from *)
Section Any.
  Context {HS : Type}.

  Inductive sets_ok (P : bytes -> HS -> Prop) : node HS -> Prop :=
  | SetsOk cs p u h :
      Forall (sets_ok P) cs -> (forall m s, lookup_set m h = Some s -> P m s) ->
      sets_ok P (Node cs p u h).

  Lemma sets_ok_mono (P Q : bytes -> HS -> Prop) n :
    (forall m s, P m s -> Q m s) -> sets_ok P n -> sets_ok Q n.
  Proof.
    intros H. induction n as [cs p u h IH] using node_ind'. intros Hs.
    inversion Hs as [? ? ? ? Hc Hh]; subst. constructor; [|auto].
    rewrite Forall_forall in *. auto.
  Qed.

  Lemma sets_ok_add_method (P : bytes -> HS -> Prop) rm (s : HS) h :
    (forall m, covers rm m = true -> P m s) ->
    (forall m s', lookup_set m h = Some s' -> P m s') ->
    forall m s', lookup_set m (add_method rm h (Some s)) = Some s' -> P m s'.
  Proof.
    intros H1 H2 m s'. rewrite lookup_add_method. destruct (covers rm m) eqn:E.
    - intros E'. injection E' as <-. auto.
    - apply H2.
  Qed.

  Lemma sets_ok_chain (P : bytes -> HS -> Prop) rm s : (forall m, covers rm m = true -> P m s) ->
    forall rest p, sets_ok P (chain rm p rest (Some s)).
  Proof.
    intros H. induction rest as [|q rest IH]; intros p; simpl; destruct (get_url_id p) as [x y].
    - constructor; [constructor|]. apply sets_ok_add_method; [exact H|]. discriminate.
    - constructor; [|discriminate]. constructor; [apply IH|constructor].
  Qed.

  Lemma Forall_upd_nth {A} (P : A -> Prop) f i l :
    (forall x, P x -> P (f x)) -> Forall P l -> Forall P (upd_nth i f l).
  Proof.
    intros Hf. revert i. induction l as [|x l IH]; intros i H; [destruct i; constructor|].
    inversion H; subst. destruct i; simpl; constructor; auto.
  Qed.

  Lemma Forall_fold_upd {A} (P : A -> Prop) f idx : forall l,
    (forall x, P x -> P (f x)) -> Forall P l ->
    Forall P (fold_left (fun cs i => upd_nth i f cs) idx l).
  Proof.
    induction idx as [|i idx IH]; intros l Hf H; simpl; [exact H|].
    apply IH; [exact Hf|]. apply Forall_upd_nth; assumption.
  Qed.

  Lemma sets_ok_add_rec (P : bytes -> HS -> Prop) rm s :
    (forall m, covers rm m = true -> P m s) ->
    forall rest p n, sets_ok P n -> sets_ok P (add_rec n rm p rest (Some s)).
  Proof.
    intros H. induction rest as [|q rest IH]; intros p n Hn;
      destruct Hn as [cs pp u h Hc Hh]; cbn [add_rec n_children n_urlid n_path n_handlers];
      destruct (next_nodes p u cs) as [|i idx] eqn:E; unfold set_children;
      cbn [n_children n_urlid n_path n_handlers]; constructor; try exact Hh.
    - apply Forall_app. split; [exact Hc|]. constructor; [|constructor].
      apply (sets_ok_chain P rm s H []).
    - apply Forall_fold_upd; [|exact Hc]. intros x Hx.
      destruct Hx as [cs' p' u' h' Hc' Hh']. unfold set_handlers. simpl.
      constructor; [exact Hc'|]. apply sets_ok_add_method; assumption.
    - apply Forall_app. split; [exact Hc|]. constructor; [|constructor].
      apply (sets_ok_chain P rm s H (q :: rest)).
    - apply Forall_fold_upd; [|exact Hc]. intros x Hx. apply IH. exact Hx.
  Qed.

  Lemma sets_ok_tree_add (P : bytes -> HS -> Prop) rm route s n :
    (forall m, covers rm m = true -> P m s) ->
    sets_ok P n -> sets_ok P (tree_add n rm route (Some s)).
  Proof.
    intros H Hn. unfold tree_add. destruct (split_path route) as [|x [|p rest]].
    1,2: destruct Hn as [cs pp u h Hc Hh]; unfold set_handlers; simpl;
         constructor; [exact Hc|]; apply sets_ok_add_method; assumption.
    apply sets_ok_add_rec; assumption.
  Qed.

  Definition registered_for (regs : list (reg HS)) (m : bytes) (s : HS) : Prop :=
    exists r, In r regs /\ covers (r_method r) m = true /\ r_set r = s.

  Lemma sets_ok_routed (regs : list (reg HS)) : sets_ok (registered_for regs) (routed regs).
  Proof.
    induction regs as [|r regs IH] using rev_ind.
    - constructor; [constructor|discriminate].
    - unfold routed in *. rewrite add_all_snoc. apply sets_ok_tree_add.
      + intros m Hm. exists r. rewrite in_app_iff. simpl. auto.
      + revert IH. apply sets_ok_mono. intros m s (r' & H1 & H2 & H3).
        exists r'. rewrite in_app_iff. auto.
  Qed.

  (** the branches of a tree: a path of matching nodes from [n] to an end node *)
  Inductive branch : list bytes -> node HS -> node HS -> args -> Prop :=
  | BEnd p n : branch [p] n n (ext_args n p [])
  | BStep p q rest n c e a :
      In c (n_children n) -> child_matches q c = true -> branch (q :: rest) c e a ->
      branch (p :: q :: rest) n e (ext_args n p [] ++ a).

  Lemma reach_branch ps : forall n a e a',
    In (e, a') (reach ps n a) -> exists a1, a' = a ++ a1 /\ branch ps n e a1.
  Proof.
    induction ps as [|p0 ps IH]; intros n a e a' Hin; [contradiction|].
    assert (X : ext_args n p0 a = a ++ ext_args n p0 []).
    { unfold ext_args, args_add. destruct (is_empty (n_urlid n)); [rewrite app_nil_r|]; reflexivity. }
    destruct ps as [|p1 ps].
    - destruct Hin as [E|[]]. injection E as <- <-. eexists. split; [exact X|constructor].
    - cbn [reach] in Hin. apply in_flat_map in Hin as [c [Hc Hin]].
      apply filter_In in Hc as [Hc Hm].
      apply IH in Hin as (a1 & -> & Hb).
      exists (ext_args n p0 [] ++ a1). split.
      + rewrite X, app_assoc. reflexivity.
      + econstructor; eassumption.
  Qed.

  Lemma sets_ok_branch P ps n e a :
    branch ps n e a -> sets_ok P n -> forall m s, lookup_set m (n_handlers e) = Some s -> P m s.
  Proof.
    induction 1 as [p n|p q rest n c e a Hc Hm Hb IH]; intros Hn m s Hs.
    - destruct Hn as [cs pp u h _ Hh]. exact (Hh m s Hs).
    - apply IH; [|exact Hs]. destruct Hn as [cs pp u h Hc' _]. simpl in Hc.
      rewrite Forall_forall in Hc'. auto.
  Qed.

  Lemma tree_find_branch top m path io s a :
    n_urlid top = [] -> n_path top = B"/" ->
    tree_find top m path io = (TFound s, a) ->
    exists e, branch (B"/" :: segments path) top e a /\ lookup_set m (n_handlers e) = Some s.
  Proof.
    intros Hu Hp. rewrite tree_find_reach by assumption.
    destruct (reach (B"/" :: segments path) top []) as [|[e a'] l] eqn:E; [discriminate|].
    cbn [hd_error decide]. destruct (lookup_set m (n_handlers e)) as [s'|] eqn:L; [|discriminate].
    cbn [finish]. intros H. injection H as -> ->. exists e. split; [|exact L].
    destruct (reach_branch (B"/" :: segments path) top [] e a) as (a1 & -> & Hb).
    - rewrite E. left. reflexivity.
    - exact Hb.
  Qed.

  Theorem any_provenance (regs : list (reg HS)) m path io s a :
    tree_find (routed regs) m path io = (TFound s, a) -> registered_for regs m s.
  Proof.
    intros H. destruct (routed_top regs) as [Hp Hu].
    destruct (tree_find_branch _ _ _ _ _ _ Hu Hp H) as (e & Hb & Hs).
    exact (sets_ok_branch _ _ _ _ _ Hb (sets_ok_routed regs) m s Hs).
  Qed.
End Any.

(** ** C04, positive part *)
Section Reachable.
  Context {HS : Type}.
  Implicit Types (tbl : list (entry HS)) (e : entry HS).

  Lemma fits_prefix pat path : fits pat path -> prefix_fits pat path.
  Proof. intros H. exists pat, []. rewrite app_nil_r. auto. Qed.

  Lemma endpoints_nonempty path : forall tbl b e,
    In e tbl -> prefix_fits (fst e) path -> endpoints path tbl b <> [].
  Proof.
    induction path as [|x path IH]; intros tbl b e Hin Hp; [discriminate|].
    cbn [endpoints]. destruct e as [[|g pat] v].
    - destruct Hp as (p1 & p2 & E & F). symmetry in E. apply app_eq_nil in E as [-> ->].
      inversion F.
    - cbn [fst] in Hp. apply prefix_fits_cons in Hp as [Hg Hp].
      assert (HI : In (g :: pat, v) (ungroup (alternatives tbl))).
      { eapply Permutation_in; [apply Permutation_sym, ungroup_alternatives|].
        apply filter_In. split; [exact Hin|reflexivity]. }
      apply in_flat_map in HI as [[g' tb] [Hgt HI]]. cbn [fst snd] in HI.
      apply in_map_iff in HI as [[p' v'] [He HI]].
      unfold cons_seg in He. cbn [fst snd] in He. injection He as -> -> ->.
      intros E.
      assert (X : forall y, ~ In y (flat_map (fun ga => if seg_fits (fst ga) x
         then endpoints path (snd ga) (b ++ bind (fst ga) x) else []) (alternatives tbl)))
        by (rewrite E; intros y []).
      destruct (endpoints path tb (b ++ bind g x)) as [|y l] eqn:Ey.
      + exact (IH tb (b ++ bind g x) (pat, v) HI Hp Ey).
      + apply (X y). apply in_flat_map. exists (g, tb). split; [exact Hgt|].
        cbn [fst snd]. rewrite Hg, Ey. left. reflexivity.
  Qed.

  Lemma endpoints_full path : forall tbl b hs b',
    tbl <> [] ->
    (forall e, In e tbl -> prefix_fits (fst e) path -> fits (fst e) path) ->
    In (hs, b') (endpoints path tbl b) -> hs <> [].
  Proof.
    induction path as [|x path IH]; intros tbl b hs b' Hne Hall Hin.
    - cbn [endpoints] in Hin. destruct Hin as [E|[]]. injection E as <- <-.
      destruct tbl as [|[p v] tbl]; [contradiction|].
      specialize (Hall (p, v) (or_introl eq_refl) (prefix_fits_nil _)). cbn [fst] in Hall.
      inversion Hall; subst. simpl. discriminate.
    - cbn [endpoints] in Hin. apply in_flat_map in Hin as [[g tb] [Hg Hin]].
      cbn [fst snd] in Hin. destruct (seg_fits g x) eqn:Hf; [|contradiction].
      apply (IH _ _ _ _ ltac:(pose proof (alternatives_nonempty tbl) as HN;
        rewrite Forall_forall in HN; exact (HN _ Hg))) in Hin; [exact Hin|].
      intros e He Hp.
      assert (F : fits (fst (cons_seg g e)) (x :: path)).
      { apply Hall; [exact (alternatives_In _ _ _ _ Hg He)|].
        apply prefix_fits_cons. auto. }
      inversion F; assumption.
  Qed.

  Lemma ref_find_reachable tbl m path :
    (exists e, In e tbl /\ fits (fst e) path) ->
    (forall e, In e tbl -> prefix_fits (fst e) path ->
               fits (fst e) path /\ covers (fst (snd e)) m = true) ->
    exists s b, ref_find tbl m path = (TFound s, b).
  Proof.
    intros (e & He & Hf) Hall. unfold ref_find.
    destruct (endpoints path tbl []) as [|[hs b] l] eqn:E.
    - exfalso. exact (endpoints_nonempty path tbl [] e He (fits_prefix _ _ Hf) E).
    - assert (Hin : In (hs, b) (endpoints path tbl [])) by (rewrite E; left; reflexivity).
      assert (Hne : hs <> []).
      { apply (endpoints_full path tbl [] hs b); [|intros; apply Hall; assumption|exact Hin].
        intros ->. contradiction. }
      unfold answer.
      destruct (find (fun x : bytes * HS => covers (fst x) m) (rev hs)) as [[rm s]|] eqn:F; [eauto|].
      exfalso. destruct hs as [|v hs]; [contradiction|].
      assert (Hv : In v (rev (v :: hs))) by (apply -> in_rev; left; reflexivity).
      pose proof (find_none _ _ F v Hv) as Hc.
      destruct (endpoints_sound path tbl [] (v :: hs) b v Hin (or_introl eq_refl))
        as (pat & Hp & Hfit & _).
      destruct (Hall (pat, v) Hp (fits_prefix _ _ Hfit)) as [_ Hc']. simpl in Hc'. congruence.
  Qed.
End Reachable.
