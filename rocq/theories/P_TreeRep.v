(** The routing tree built by a history of registrations represents the plain
    table of these registrations (refinement behind property C05). *)
From Verif Require Import Base GoStrings M_Tree S_Route P_TreeFind.

Lemma beq_cons_nil a x : beq (a :: x) [] = false.
Proof. reflexivity. Qed.

Lemma get_url_id_seg p :
  get_url_id p = match seg_of p with Lit s => (s, []) | Par n => ([], n) end.
Proof.
  unfold get_url_id, seg_of, has_prefix.
  destruct p as [|c p]; [reflexivity|].
  change (strip_prefix (B":") (c :: p)) with
    (if Ascii.eqb ":"%char c then Some p else None).
  destruct (Ascii.eqb_spec ":"%char c) as [<-|H].
  - reflexivity.
  - destruct c as [[] [] [] [] [] [] [] []]; try reflexivity; contradiction H; reflexivity.
Qed.

Lemma seg_of_lit p s : seg_of p = Lit s -> p = s.
Proof.
  unfold seg_of. destruct p as [|c p]; [congruence|].
  destruct c as [[] [] [] [] [] [] [] []]; congruence.
Qed.

Lemma seg_of_colon p : seg_of (":"%char :: p) = Par (drop_while (Ascii.eqb ":"%char) (":"%char :: p)).
Proof. reflexivity. Qed.

Lemma fold_left_snoc {A B} (f : A -> B -> A) l x a :
  fold_left f (l ++ [x]) a = f (fold_left f l a) x.
Proof. rewrite fold_left_app. reflexivity. Qed.

Lemma upd_nth_app {A} (l1 l2 : list A) x f :
  upd_nth (length l1) f (l1 ++ x :: l2) = l1 ++ f x :: l2.
Proof. induction l1 as [|y l1 IH]; simpl; [reflexivity|]. rewrite IH. reflexivity. Qed.

Lemma flat_map_filter {A C} (f : A -> bool) (g : A -> list C) l :
  flat_map g (filter f l) = flat_map (fun x => if f x then g x else []) l.
Proof.
  induction l as [|x l IH]; simpl; [reflexivity|].
  destruct (f x); simpl; rewrite IH; reflexivity.
Qed.

Section Rep.
  Context {HS : Type}.
  Implicit Types (n : node HS) (a : args) (tbl : list (entry HS)).

  Definition here tbl : list (bytes * HS) :=
    flat_map (fun e => match fst e with [] => [snd e] | _ => [] end) tbl.

  Definition seg_node (g : seg) n : Prop :=
    match g with
    | Lit s => n_path n = s /\ n_urlid n = [] /\ s <> [] /\ seg_of s = Lit s
    | Par nm => n_path n = [] /\ n_urlid n = nm /\ nm <> []
    end.

  Inductive rep : list (entry HS) -> node HS -> Prop :=
  | Rep tbl n :
      (forall m, lookup_set m (n_handlers n) = answer m (here tbl)) ->
      Forall2 (fun ga c => seg_node (fst ga) c /\ rep (snd ga) c)
              (alternatives tbl) (n_children n) ->
      rep tbl n.

  Lemma lookup_add_method m rm h s :
    lookup_set m (add_method rm h (Some s))
    = if covers rm m then Some s else @lookup_set HS m h.
  Proof.
    unfold lookup_set, add_method, covers.
    destruct (beq rm MethodGetPost) eqn:E1; [|destruct (beq rm MethodGetHead) eqn:E2];
      rewrite ?aget_aput.
    - destruct (beq m MethodGet) eqn:F1; [reflexivity|].
      destruct (beq m MethodPost); reflexivity.
    - destruct (beq m MethodHead) eqn:F1; [rewrite orb_true_r; reflexivity|].
      destruct (beq m MethodGet); reflexivity.
    - rewrite (beq_sym rm m). destruct (beq m rm); reflexivity.
  Qed.

  Lemma answer_snoc m hs rm (s : HS) :
    answer m (hs ++ [(rm, s)]) = if covers rm m then Some s else answer m hs.
  Proof.
    unfold answer. rewrite rev_app_distr. simpl.
    destruct (covers rm m); reflexivity.
  Qed.

  Lemma alternatives_snoc tbl e : alternatives (tbl ++ [e]) = step_alt (alternatives tbl) e.
  Proof. unfold alternatives. apply fold_left_snoc. Qed.

  Lemma here_snoc tbl e :
    here (tbl ++ [e]) = here tbl ++ match fst e with [] => [snd e] | _ => [] end.
  Proof. unfold here. rewrite flat_map_app. simpl. rewrite app_nil_r. reflexivity. Qed.

  Lemma ins_alt_par nm e gs : ins_alt (Par nm) e gs = (gs ++ [(Par nm, [e])] : list (seg * list (entry HS))).
  Proof. induction gs as [|[g tb] gs IH]; simpl; [reflexivity|]. rewrite IH. reflexivity. Qed.

  Lemma wf_seg_node p c :
    wf_segb p = true -> n_path c = fst (get_url_id p) -> n_urlid c = snd (get_url_id p) ->
    seg_node (seg_of p) c.
  Proof.
    unfold wf_segb. rewrite get_url_id_seg. intros Hw Hp Hu.
    destruct (seg_of p) as [s|nm] eqn:E; simpl in *; apply negb_true_iff, is_empty_false in Hw.
    - pose proof (seg_of_lit _ _ E) as ->. auto.
    - auto.
  Qed.

  Lemma chain_path m p rest (s : option HS) :
    n_path (chain m p rest s) = fst (get_url_id p) /\
    n_urlid (chain m p rest s) = snd (get_url_id p).
  Proof.
    destruct rest; simpl; destruct (get_url_id p) as [x y]; simpl; auto.
  Qed.

  Lemma alternatives_one h t v : alternatives [((h :: t, v) : entry HS)] = [(h, [(t, v)])].
  Proof. reflexivity. Qed.

  Lemma chain_rep rest : forall m p s,
    forallb wf_segb rest = true ->
    rep [(map seg_of rest, (m, s))] (chain m p rest (Some s)).
  Proof.
    induction rest as [|q rest IH]; intros m p s Hw; constructor.
    - intros m'. simpl. destruct (get_url_id p) as [x y]. simpl.
      rewrite lookup_add_method. unfold answer. simpl.
      destruct (covers m m'); reflexivity.
    - simpl. destruct (get_url_id p) as [x y]. simpl. constructor.
    - intros m'. simpl. destruct (get_url_id p) as [x y]. reflexivity.
    - simpl in Hw. apply andb_true_iff in Hw as [Hq Hw].
      cbn [chain map]. rewrite alternatives_one.
      destruct (get_url_id p) as [x y]. cbn [n_children].
      constructor; [|constructor]. cbn [fst snd]. split.
      + destruct (chain_path m q rest (Some s)) as [H1 H2].
        apply wf_seg_node; assumption.
      + apply IH. exact Hw.
  Qed.

  (** the child selected by nextNodes is the alternative selected by ins_alt *)
  Lemma find_child_spec (R : seg * list (entry HS) -> node HS -> Prop) p e :
    (forall ga c, R ga c -> seg_node (fst ga) c) ->
    wf_segb p = true ->
    forall gs cs, Forall2 R gs cs -> forall k,
    (find_child p cs k = [] /\ ins_alt (seg_of p) e gs = gs ++ [(seg_of p, [e])]) \/
    (exists gs1 tb gs2 cs1 c cs2,
        seg_of p = Lit p /\
        gs = gs1 ++ (Lit p, tb) :: gs2 /\ cs = cs1 ++ c :: cs2 /\
        Forall2 R gs1 cs1 /\ R (Lit p, tb) c /\ Forall2 R gs2 cs2 /\
        find_child p cs k = [k + length cs1] /\
        ins_alt (seg_of p) e gs = gs1 ++ (Lit p, tb ++ [e]) :: gs2).
  Proof.
    intros HR Hw gs cs HF.
    induction HF as [|[g tb] c gs cs Hgc HF IH]; intros k.
    - left. split; reflexivity.
    - pose proof (HR _ _ Hgc) as Hseg. cbn [fst] in Hseg.
      cbn [find_child ins_alt].
      destruct (same_lit (seg_of p) g) eqn:Esl.
      + (* same literal *)
        destruct (seg_of p) as [s|nm] eqn:Ep; [|discriminate].
        destruct g as [s'|nm']; [|discriminate].
        cbn [same_lit] in Esl. apply beq_eq in Esl. subst s'.
        pose proof (seg_of_lit _ _ Ep) as <-.
        right. exists [], tb, gs, [], c, cs.
        destruct Hseg as [Hp _]. rewrite Hp, beq_refl.
        rewrite Nat.add_0_r. simpl. auto 10.
      + assert (Hne : beq (n_path c) p = false).
        { apply beq_neq. intros Heq. subst p. unfold wf_segb in Hw.
          destruct g as [s'|nm'].
          - destruct Hseg as [Hp [_ [_ Hs]]]. rewrite Hp in *. rewrite Hs in Esl.
            cbn [same_lit] in Esl. rewrite beq_refl in Esl. discriminate.
          - destruct Hseg as [Hp _]. rewrite Hp in Hw. simpl in Hw. discriminate. }
        rewrite Hne. destruct (IH (S k)) as [[H1 H2]|H].
        * left. rewrite H1, H2. split; reflexivity.
        * right. destruct H as (gs1 & tb' & gs2 & cs1 & c' & cs2 & H1 & H2 & H3 & H4 & H5 & H6 & H7 & H8).
          exists ((g, tb) :: gs1), tb', gs2, (c :: cs1), c', cs2.
          subst gs cs. repeat split; try assumption.
          -- constructor; assumption.
          -- rewrite H7. simpl. f_equal. lia.
          -- rewrite H8. reflexivity.
  Qed.

  Lemma add_rec_top rest : forall n m p (s : option HS),
    n_path (add_rec n m p rest s) = n_path n /\
    n_urlid (add_rec n m p rest s) = n_urlid n /\
    n_handlers (add_rec n m p rest s) = n_handlers n.
  Proof.
    destruct rest; intros n m p s; simpl; destruct (next_nodes _ _ _); simpl; auto.
  Qed.

  Lemma rep_add rest : forall n m p s tbl,
    n_urlid n = [] -> rep tbl n ->
    wf_segb p = true -> forallb wf_segb rest = true ->
    rep (tbl ++ [(map seg_of (p :: rest), (m, s))]) (add_rec n m p rest (Some s)).
  Proof.
    induction rest as [|q rest IH]; intros n m p s tbl Hu Hrep Hp Hrest;
      inversion Hrep as [tbl' n' Hh Hc]; subst.
    - (* final segment *)
      constructor.
      + intros m'. destruct (add_rec_top [] n m p (Some s)) as [_ [_ ->]].
        rewrite here_snoc. simpl. rewrite app_nil_r. apply Hh.
      + rewrite alternatives_snoc. cbn [map step_alt].
        destruct (find_child_spec _ p ([], (m, s)) (fun ga c H => proj1 H) Hp _ _ Hc 0)
          as [[H1 H2]|(gs1 & tb & gs2 & cs1 & c & cs2 & H1 & H2 & H3 & H4 & H5 & H6 & H7 & H8)].
        * cbn [add_rec]. unfold next_nodes. rewrite Hu. cbn [is_empty negb].
          rewrite H1, H2. cbn [set_children n_children].
          apply Forall2_app; [exact Hc|]. constructor; [|constructor].
          cbn [fst snd]. split.
          -- destruct (chain_path m p [] (Some s)). apply wf_seg_node; assumption.
          -- apply (chain_rep [] m p s eq_refl).
        * cbn [add_rec]. unfold next_nodes. rewrite Hu. cbn [is_empty negb].
          rewrite H7, H8. cbn [set_children n_children fold_left Nat.add].
          rewrite H3, upd_nth_app.
          apply Forall2_app; [exact H4|]. constructor; [|exact H6].
          destruct H5 as [Hsn Hr]. cbn [fst snd] in *. split.
          -- destruct Hsn as (A1 & A2 & A3 & A4). simpl. auto.
          -- inversion Hr as [t' c' Hh' Hc']; subst. constructor.
             ++ intros m'. cbn [set_handlers n_handlers].
                rewrite lookup_add_method, here_snoc. cbn [fst snd].
                rewrite answer_snoc, Hh'. reflexivity.
             ++ rewrite alternatives_snoc. cbn [step_alt set_handlers n_children]. exact Hc'.
    - cbn [forallb] in Hrest. apply andb_true_iff in Hrest as [Hq Hrest].
      constructor.
      + intros m'. destruct (add_rec_top (q :: rest) n m p (Some s)) as [_ [_ ->]].
        rewrite here_snoc. cbn [map fst]. rewrite app_nil_r. apply Hh.
      + rewrite alternatives_snoc. cbn [map step_alt].
        destruct (find_child_spec _ p (map seg_of (q :: rest), (m, s)) (fun ga c H => proj1 H) Hp _ _ Hc 0)
          as [[H1 H2]|(gs1 & tb & gs2 & cs1 & c & cs2 & H1 & H2 & H3 & H4 & H5 & H6 & H7 & H8)].
        * cbn [add_rec]. unfold next_nodes. rewrite Hu. cbn [is_empty negb].
          cbn [map] in H2. rewrite H1, H2. cbn [set_children n_children].
          apply Forall2_app; [exact Hc|]. constructor; [|constructor].
          cbn [fst snd]. split.
          -- destruct (chain_path m p (q :: rest) (Some s)). apply wf_seg_node; assumption.
          -- apply (chain_rep (q :: rest) m p s). cbn [forallb]. rewrite Hq, Hrest. reflexivity.
        * cbn [add_rec]. unfold next_nodes. rewrite Hu. cbn [is_empty negb].
          cbn [map] in H8. rewrite H7, H8. cbn [set_children n_children fold_left Nat.add].
          rewrite H3, upd_nth_app.
          apply Forall2_app; [exact H4|]. constructor; [|exact H6].
          destruct H5 as [Hsn Hr]. cbn [fst snd] in *.
          destruct Hsn as (A1 & A2 & A3 & A4). split.
          -- destruct (add_rec_top rest c m q (Some s)) as (T1 & T2 & _).
             cbn [seg_node]. rewrite T1, T2. auto.
          -- apply IH; assumption.
  Qed.

  Lemma add_all_snoc (t : node HS) regs r :
    add_all t (regs ++ [r]) = tree_add (add_all t regs) (r_method r) (r_route r) (Some (r_set r)).
  Proof. unfold add_all. rewrite fold_left_app. reflexivity. Qed.

  Lemma tree_add_top (t : node HS) m p s :
    n_path (tree_add t m p s) = n_path t /\ n_urlid (tree_add t m p s) = n_urlid t.
  Proof.
    unfold tree_add. destruct (split_path p) as [|x [|y l]]; simpl; auto.
    destruct (add_rec_top l t m y s) as (H1 & H2 & _). auto.
  Qed.

  Lemma routed_top (regs : list (reg HS)) :
    n_path (routed regs) = B"/" /\ n_urlid (routed regs) = [].
  Proof.
    unfold routed. induction regs as [|r regs IH] using rev_ind; [split; reflexivity|].
    rewrite add_all_snoc.
    destruct (tree_add_top (add_all new_tree regs) (r_method r) (r_route r) (Some (r_set r)))
      as [-> ->]. exact IH.
  Qed.

  Lemma routed_rep (regs : list (reg HS)) :
    forallb (fun r => wf_routeb (r_route r)) regs = true ->
    rep (map entry_of regs) (routed regs).
  Proof.
    induction regs as [|r regs IH] using rev_ind; intros Hw.
    - constructor; [reflexivity|constructor].
    - rewrite forallb_app in Hw. apply andb_true_iff in Hw as [Hw Hr].
      simpl in Hr. rewrite andb_true_r in Hr.
      specialize (IH Hw). unfold routed in *. rewrite add_all_snoc, map_app.
      cbn [map]. unfold entry_of at 2. unfold pattern_of, tree_add.
      rewrite split_path_shape. unfold wf_routeb in Hr.
      destruct (segments (r_route r)) as [|p rest] eqn:E.
      + inversion IH as [t n Hh Hc]; subst. constructor.
        * intros m. cbn [set_handlers n_handlers].
          rewrite lookup_add_method, here_snoc. cbn [map fst snd].
          rewrite answer_snoc, Hh. reflexivity.
        * rewrite alternatives_snoc. cbn [map step_alt set_handlers n_children]. exact Hc.
      + cbn [forallb] in Hr. apply andb_true_iff in Hr as [Hp Hrest].
        apply rep_add; try assumption. apply routed_top.
  Qed.

  (** preorder end nodes of the tree = end points of the table *)
  Lemma reach_endpoints path : forall p0 n a tbl,
    rep tbl n ->
    Forall2 (fun na hb => (forall m, lookup_set m (n_handlers (fst na)) = answer m (fst hb))
                          /\ snd na = snd hb)
            (reach (p0 :: path) n a) (endpoints path tbl (ext_args n p0 a)).
  Proof.
    induction path as [|x path IH]; intros p0 n a tbl Hrep;
      inversion Hrep as [t' n' Hh Hc]; subst.
    - cbn [reach endpoints]. constructor; [|constructor]. cbn [fst snd].
      split; [exact Hh|reflexivity].
    - change (reach (p0 :: x :: path) n a) with
        (flat_map (fun c => reach (x :: path) c (ext_args n p0 a))
                  (filter (child_matches x) (n_children n))).
      cbn [endpoints]. rewrite flat_map_filter.
      generalize (ext_args n p0 a) as a1. intros a1.
      induction Hc as [|[g tb] c gs cs [Hsn Hr] Hc IHc]; [constructor|].
      cbn [flat_map]. apply Forall2_app; [|exact IHc].
      cbn [fst snd] in *.
      assert (E : child_matches x c = seg_fits g x).
      { unfold child_matches. destruct g as [s|nm]; cbn [seg_node] in Hsn.
        - destruct Hsn as (-> & -> & _). simpl. apply orb_false_r.
        - destruct Hsn as (_ & -> & Hne). apply is_empty_false in Hne. rewrite Hne.
          simpl. apply orb_true_r. }
      rewrite E. destruct (seg_fits g x); [|constructor].
      assert (E2 : a1 ++ bind g x = ext_args c x a1).
      { unfold ext_args, bind, args_add. destruct g as [s|nm]; cbn [seg_node] in Hsn.
        - destruct Hsn as (_ & -> & _). apply app_nil_r.
        - destruct Hsn as (_ & -> & Hne). apply is_empty_false in Hne. rewrite Hne. reflexivity. }
      rewrite E2. apply IH. exact Hr.
  Qed.

  Theorem tree_find_ref (regs : list (reg HS)) m path io :
    forallb (fun r => wf_routeb (r_route r)) regs = true ->
    tree_find (routed regs) m path io = ref_find (map entry_of regs) m (segments path).
  Proof.
    intros Hw. destruct (routed_top regs) as [Hp Hu].
    rewrite tree_find_reach by assumption.
    pose proof (reach_endpoints (segments path) (B"/") (routed regs) [] _ (routed_rep regs Hw)) as H.
    unfold ext_args in H. rewrite Hu in H. cbn [is_empty] in H.
    unfold ref_find.
    destruct H as [|[n a] [hs b] l1 l2 [H1 H2] _].
    - reflexivity.
    - cbn [fst snd] in *. subst b. cbn [hd_error decide]. rewrite H1.
      destruct (answer m hs); reflexivity.
  Qed.
End Rep.
