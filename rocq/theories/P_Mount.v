(** Proofs about static mounts. *)
From Verif Require Import Base GoStrings GoPath M_Tree M_RegTree S_Route P_TreeFind P_RegTree M_Cond M_Content M_Static M_Mount S_Mount.

(** ** The expressions *)
Lemma ordinary_special c : ordinary c -> special c = false.
Proof.
  intros [N A]. unfold special. apply orb_false_iff. split.
  - apply not_true_is_false. intros H. apply existsb_exists in H as (x & Hx & E). apply Ascii.eqb_eq in E. subst x. contradiction.
  - apply N.ltb_ge. lia.
Qed.
Lemma ordinary_star c : ordinary c -> c <> "*"%char.
Proof. intros [N _] ->. apply N. vm_compute. tauto. Qed.
Lemma ordinary_dot c : ordinary c -> Ascii.eqb c "." = false.
Proof. intros [N _]. apply Ascii.eqb_neq. intros ->. apply N. vm_compute. tauto. Qed.
Definition item_of (c : ascii) : item := (if Ascii.eqb c "." then AnyRune else Chr c, false).

Lemma items_cons c p : c <> "*"%char -> (ordinary c \/ c = "."%char) ->
  (match p with "*"%char :: _ => False | _ => True end) ->
  items (c :: p) = option_map (cons (item_of c)) (items p).
Proof.
  intros Nc Hc Hp. cbn [items]. unfold item_of.
  assert (E : (if Ascii.eqb c "." then Some AnyRune else if special c then None else Some (Chr c)) =
              Some (if Ascii.eqb c "." then AnyRune else Chr c)).
  { destruct Hc as [O| ->]; [|reflexivity]. rewrite (ordinary_dot c O), (ordinary_special c O). reflexivity. }
  rewrite E. destruct p as [|x p]; [reflexivity|].
  destruct (Ascii.eqb_spec x "*"%char) as [->|Nx]; [destruct Hp|].
  destruct x as [[] [] [] [] [] [] [] []]; try reflexivity. exfalso. apply Nx. reflexivity.
Qed.
Lemma items_mount url : dotted_url url ->
  items (url ++ B"/.*") = Some (map item_of url ++ [(Chr "/", false); (AnyRune, true)]).
Proof.
  intros H. induction H as [|c url Hc Hu IH]; [reflexivity|]. cbn [app map].
  assert (Nc : c <> "*"%char) by (destruct Hc as [O| ->]; [apply ordinary_star; exact O|discriminate]).
  rewrite items_cons; [rewrite IH; reflexivity|exact Nc|exact Hc|].
  destruct url as [|d url]; cbn [app]; [exact I|]. inversion Hu as [|? ? Hd _]; subst.
  assert (Nd : d <> "*"%char) by (destruct Hd as [O| ->]; [apply ordinary_star; exact O|discriminate]).
  destruct d as [[] [] [] [] [] [] [] []]; try exact I. apply Nd. reflexivity.
Qed.
Lemma compile_mount other url : dotted_url url ->
  compile other (mount_expr url) = Some (match_items (map item_of url ++ [(Chr "/", false); (AnyRune, true)])).
Proof. intros H. unfold compile, mount_expr. rewrite items_mount by exact H. reflexivity. Qed.

Lemma match_end s : match_items [(AnyRune, true)] s = true.
Proof. destruct s; reflexivity. Qed.
Lemma match_plain url path : plain_url url ->
  (match_items (map item_of url ++ [(Chr "/", false); (AnyRune, true)]) path = true <-> below url path).
Proof.
  intros H. revert path. induction H as [|c url Hc _ IH]; intros path.
  - cbn [map app]. split.
    + destruct path as [|x path]; [discriminate|]. cbn [match_items eat].
      destruct (Ascii.eqb_spec "/"%char x) as [<-|]; [|discriminate]. intros _. exists path. reflexivity.
    + intros [rest ->]. cbn [app]. change (match_items [(AnyRune, true)] rest = true). apply match_end.
  - cbn [map app]. unfold item_of at 1. rewrite (ordinary_dot c Hc). cbn [match_items]. split.
    + destruct path as [|x path]; [discriminate|]. cbn [eat].
      destruct (Ascii.eqb_spec c x) as [<-|]; [|discriminate]. intros M. apply IH in M as [rest ->]. exists rest. reflexivity.
    + intros [rest ->]. cbn [app eat]. rewrite Ascii.eqb_refl. apply IH. exists rest. reflexivity.
Qed.
Lemma rune_width_ascii c s : (bv c < 128)%N -> rune_width (c :: s) = 1.
Proof.
  intros H. assert (R : forall lo hi, (128 <= lo)%N -> in_range lo hi c = false).
  { intros lo hi L. unfold in_range. apply andb_false_iff. left. apply N.leb_gt. lia. }
  destruct s as [|c1 [|c2 [|c3 s]]]; cbn [rune_width]; rewrite ?(R 240%N), ?(R 241%N), ?(R 244%N), ?(R 224%N), ?(R 225%N), ?(R 238%N), ?(R 237%N), ?(R 194%N) by lia; reflexivity.
Qed.
Lemma match_dotted url rest : dotted_url url ->
  match_items (map item_of url ++ [(Chr "/", false); (AnyRune, true)]) (url ++ "/"%char :: rest) = true.
Proof.
  intros H. induction H as [|c url Hc _ IH].
  - cbn [map app]. change (match_items [(AnyRune, true)] rest = true). apply match_end.
  - cbn [map app]. unfold item_of at 1. destruct Hc as [O| ->].
    + rewrite (ordinary_dot c O). cbn [match_items eat]. rewrite Ascii.eqb_refl. exact IH.
    + rewrite Ascii.eqb_refl. cbn [match_items]. unfold eat.
      change (Ascii.eqb "."%char (ch 10)) with false. cbv iota.
      rewrite rune_width_ascii by reflexivity. exact IH.
Qed.

(** ** The tables of a server after its setup *)
Lemma chosen_pick {U} (fresh_set : bytes -> U) sets url : chosen fresh_set sets url = pick_set fresh_set sets url.
Proof. destruct sets as [|[u|] sets]; reflexivity. Qed.
Section Setup.
  Context {U : Type}.
  Variable other : bytes -> option matcher.
  Variable dir_fs : bytes -> iofs.
  Variable fresh_set : bytes -> U.
  Notation setup := (setup other dir_fs fresh_set).
  Notation setup1 := (setup1 other dir_fs fresh_set).
  Notation set_of := (set_of dir_fs fresh_set).

  Definition path_reg (o : op U) : list (reg (@hs U)) :=
    match o with
    | OAdd m route _ _ => match set_of o with Some s => [Reg m route s] | None => [] end
    | OFixStaticFileFS _ url _ _ => match set_of o with Some s => [Reg MethodGetPost url s] | None => [] end
    | _ => []
    end.
  Definition expr_reg (o : op U) : list (bytes * matcher * @hs U) :=
    match o with
    | OAddReg m f _ _ => match set_of o with Some s => [(m, f, s)] | None => [] end
    | OStaticFile _ url _ | OStaticFileFS _ url _ _ =>
        match compile other (mount_expr url), set_of o with
        | Some f, Some s => [(MethodGetHead, f, s)]
        | _, _ => []
        end
    | _ => []
    end.
  Fixpoint number (i : nat) (l : list (bytes * matcher * @hs U)) : list (rreg (@hs U)) :=
    match l with
    | [] => []
    | (m, _, s) :: l' => (m, i, s) :: number (S i) l'
    end.
  Lemma number_app l1 : forall i l2, number i (l1 ++ l2) = number i l1 ++ number (i + length l1) l2.
  Proof.
    induction l1 as [|[[m f] s] l1 IH]; intros i l2; cbn [number app length].
    - rewrite Nat.add_0_r. reflexivity.
    - rewrite IH. replace (S i + length l1) with (i + S (length l1)) by lia. reflexivity.
  Qed.
  Lemma number_In l : forall i m re s, In (m, re, s) (number i l) <->
    exists k f, nth_error l k = Some (m, f, s) /\ re = i + k.
  Proof.
    induction l as [|[[m0 f0] s0] l IH]; intros i m re s; cbn [number In].
    - split; [contradiction|]. intros (k & f & E & _). destruct k; discriminate.
    - rewrite IH. split.
      + intros [E|(k & f & E & ->)].
        * injection E as <- <- <-. exists 0, f0. split; [reflexivity|lia].
        * exists (S k), f. split; [exact E|lia].
      + intros ([|k] & f & E & ->).
        * cbn in E. injection E as -> _ ->. left. f_equal. f_equal. lia.
        * right. exists k, f. split; [exact E|lia].
  Qed.

  Lemma setup_app os1 : forall sv os2, setup sv (os1 ++ os2) = match setup sv os1 with Ok sv' => setup sv' os2 | Panic => Panic end.
  Proof.
    induction os1 as [|o os1 IH]; intros sv os2; [reflexivity|]. cbn [app M_Mount.setup].
    destruct (setup1 sv o); [apply IH|reflexivity].
  Qed.

  Record tables (os : list (op U)) (sv : srv U) : Prop := Tables {
    t_top : sv_top sv = routed (flat_map path_reg os);
    t_rt : reg_add_all new_reg_tree (number 0 (flat_map expr_reg os)) = Ok (sv_rt sv);
    t_exprs : sv_exprs sv = map (fun x => snd (fst x)) (flat_map expr_reg os);
    t_sets : forall o, In o os -> set_of o <> None \/ exists url, mounts o url /\ compile other (mount_expr url) = None
  }.
  Lemma add_all_snoc (l : list (reg (@hs U))) r : routed (l ++ [r]) = tree_add (routed l) (r_method r) (r_route r) (Some (r_set r)).
  Proof. unfold routed, add_all. rewrite fold_left_app. reflexivity. Qed.
  Lemma tables_reg os sv o m f s u h :
    tables os sv -> path_reg o = [] -> expr_reg o = [(m, f, s)] -> s = (u, h) -> set_of o <> None ->
    forall sv', server_add_reg sv m f h (Some u) = Ok sv' -> tables (os ++ [o]) sv'.
  Proof.
    intros [T1 T2 T3 T4] Hp He -> Hs sv' E. unfold server_add_reg in E.
    destruct (reg_add (sv_rt sv) m (length (sv_exprs sv)) (u, h)) as [rt|] eqn:R; [|discriminate]. injection E as <-.
    constructor; cbn [sv_top sv_rt sv_exprs].
    - rewrite flat_map_app. cbn [flat_map]. rewrite Hp, !app_nil_r. exact T1.
    - rewrite flat_map_app. cbn [flat_map]. rewrite He, app_nil_r, number_app, reg_add_all_app, T2.
      cbn [rbind number reg_add_all]. unfold rg_method, rg_re, rg_set. cbn [fst snd].
      rewrite T3, map_length in R. rewrite Nat.add_0_l. rewrite R. reflexivity.
    - rewrite flat_map_app. cbn [flat_map]. rewrite He, app_nil_r, map_app, T3. reflexivity.
    - intros o' H. apply in_app_or in H as [H|[<-|[]]]; [apply T4; exact H|]. left. exact Hs.
  Qed.
  Lemma tables_skip os sv o : tables os sv -> path_reg o = [] -> expr_reg o = [] -> (exists url, mounts o url /\ compile other (mount_expr url) = None) -> tables (os ++ [o]) sv.
  Proof.
    intros [T1 T2 T3 T4] Hp He Hs. constructor; rewrite ?flat_map_app; cbn [flat_map]; rewrite ?Hp, ?He, ?app_nil_r; try assumption.
    intros o' H. apply in_app_or in H as [H|[<-|[]]]; [apply T4; exact H|]. right. exact Hs.
  Qed.
  Lemma tables_path os sv o m route s : tables os sv -> path_reg o = [Reg m route s] -> expr_reg o = [] -> set_of o <> None ->
    tables (os ++ [o]) (Srv (tree_add (sv_top sv) m route (Some s)) (sv_rt sv) (sv_exprs sv)).
  Proof.
    intros [T1 T2 T3 T4] Hp He Hs. constructor; cbn [sv_top sv_rt sv_exprs]; rewrite ?flat_map_app; cbn [flat_map]; rewrite ?Hp, ?He, ?app_nil_r; try assumption.
    - cbn [app]. rewrite add_all_snoc, T1. reflexivity.
    - intros o' H. apply in_app_or in H as [H|[<-|[]]]; [apply T4; exact H|]. left. exact Hs.
  Qed.
  Lemma tables_mount os sv o url h sets sv' :
    tables os sv -> mounts o url -> set_of o = option_map (fun u => (u, h)) (pick_set fresh_set sets url) ->
    keep sv (add_mount other fresh_set sv url h sets) = Ok sv' -> tables (os ++ [o]) sv'.
  Proof.
    intros T M Hs E. unfold add_mount in E.
    assert (Hp : path_reg o = []) by (destruct o; cbn in M; try contradiction; reflexivity).
    assert (He : expr_reg o = match compile other (mount_expr url), set_of o with Some f, Some s => [(MethodGetHead, f, s)] | _, _ => [] end).
    { destruct o; cbn [mounts] in M; try contradiction; subst; reflexivity. }
    destruct (compile other (mount_expr url)) as [f|] eqn:C; cbn [keep] in E.
    - destruct (pick_set fresh_set sets url) as [u|] eqn:P; [|discriminate]. cbn [option_map] in Hs. rewrite Hs in He.
      destruct (server_add_reg sv MethodGetHead f h (Some u)) as [x|] eqn:A; [|discriminate]. injection E as <-.
      eapply tables_reg; try eassumption; [reflexivity|]. rewrite Hs. discriminate.
    - injection E as <-. apply tables_skip; [exact T|exact Hp|exact He|]. exists url. split; assumption.
  Qed.
  Lemma setup_tables os : forall sv, setup new_srv os = Ok sv -> tables os sv.
  Proof.
    induction os as [|o os IH] using rev_ind; intros sv H.
    - injection H as <-. constructor; try reflexivity. intros o [].
    - rewrite setup_app in H. destruct (setup new_srv os) as [sv0|]; [|discriminate]. specialize (IH sv0 eq_refl).
      cbn [M_Mount.setup] in H. destruct (setup1 sv0 o) as [sv1|] eqn:E; [|discriminate]. injection H as <-.
      destruct o as [m route n set|m f n set|file url sets|file url fsys sets|file url fsys sets]; cbn [M_Mount.setup1] in E.
      + destruct set as [u|]; [|discriminate]. cbn [server_add] in E. injection E as <-.
        apply tables_path; try reflexivity; [exact IH|discriminate].
      + destruct set as [u|]; [|discriminate]. eapply tables_reg; try eassumption; try reflexivity. discriminate.
      + unfold static_file in E. eapply tables_mount; try eassumption; [reflexivity|]. rewrite <- chosen_pick. reflexivity.
      + unfold static_file_fs in E. eapply tables_mount; try eassumption; [reflexivity|]. rewrite <- chosen_pick. reflexivity.
      + unfold fix_static_file_fs, server_add in E. destruct (pick_set fresh_set sets url) as [u|] eqn:P; [|discriminate].
        injection E as <-. assert (Hs : set_of (OFixStaticFileFS file url fsys sets) = Some (u, fix_handler file fsys)).
        { cbn [S_Mount.set_of]. rewrite chosen_pick, P. reflexivity. }
        apply tables_path; [exact IH| | |rewrite Hs; discriminate]; [|reflexivity]. unfold path_reg. rewrite Hs. reflexivity.
  Qed.

  Lemma proper_regs os : Forall proper os -> forallb (fun r => wf_routeb (r_route r)) (flat_map path_reg os) = true.
  Proof.
    induction 1 as [|o os Ho _ IH]; [reflexivity|]. cbn [flat_map]. rewrite forallb_app, IH, andb_true_r.
    destruct o; cbn [path_reg]; try reflexivity; cbn [proper] in Ho;
      match goal with |- context [match ?x with _ => _ end] => destruct x end; cbn; rewrite ?Ho; reflexivity.
  Qed.
  Lemma path_reg_claims o r m path : In r (path_reg o) -> covers (r_method r) m = true -> fits (pattern_of (r_route r)) (segments path) ->
    claims other o m path /\ set_of o = Some (r_set r).
  Proof.
    destruct o as [rm route n set|rm f n set|file url sets|file url fsys sets|file url fsys sets]; cbn [path_reg]; try (intros []; fail);
      match goal with |- context [match ?x with _ => _ end] => destruct x eqn:E end; try (intros []; fail); intros [<-|[]]; cbn; auto.
  Qed.
  Lemma covers_gethead m : covers MethodGetHead m = true <-> In m [B"GET"; B"HEAD"].
  Proof.
    change (covers MethodGetHead m) with (beq m MethodGet || beq m MethodHead). rewrite orb_true_iff, !beq_eq.
    cbn [In]. split; [intros [->| ->]; auto|]. intros [<-|[<-|[]]]; auto.
  Qed.
  Lemma expr_reg_claims o m f s : In (m, f, s) (expr_reg o) -> set_of o = Some s /\
    forall m' path, covers m m' = true -> f path = true -> claims other o m' path.
  Proof.
    destruct o as [rm route n set|rm g n set|file url sets|file url fsys sets|file url fsys sets]; cbn [expr_reg]; try (intros []; fail).
    - destruct (set_of (OAddReg rm g n set)); [|intros []]. intros [E|[]]. injection E as -> -> ->. split; [reflexivity|]. cbn. auto.
    - destruct (compile other (mount_expr url)) as [g|] eqn:C; [|intros []].
      destruct (set_of (OStaticFile file url sets)); [|intros []]. intros [E|[]]. injection E as <- -> ->. split; [reflexivity|].
      intros m' path Hc Hf. split; [apply covers_gethead; exact Hc|]. exists f. split; assumption.
    - destruct (compile other (mount_expr url)) as [g|] eqn:C; [|intros []].
      destruct (set_of (OStaticFileFS file url fsys sets)); [|intros []]. intros [E|[]]. injection E as <- -> ->. split; [reflexivity|].
      intros m' path Hc Hf. split; [apply covers_gethead; exact Hc|]. exists f. split; assumption.
  Qed.
End Setup.
