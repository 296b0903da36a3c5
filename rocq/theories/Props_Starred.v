(** C157: mount points with stars in them. *)
From Verif Require Import Base GoStrings GoPath M_Tree M_RegTree S_Route M_Cond M_Content S_Static P_GoPath M_Static Props_Static Props_Static2
  M_Mount S_Mount P_RegTree P_Mount Props_Mount S_Exposed P_Exposed P_Dotted Props_RegTree S_Starred.

Definition atom_of (c : ascii) : atom := if Ascii.eqb c "." then AnyRune else Chr c.
Lemma eat_one c s more : eat (atom_of c) s = Some more <-> one c s more.
Proof.
  unfold atom_of, one. destruct (Ascii.eqb_spec c ".") as [->|Nc].
  - split.
    + destruct s as [|x s']; [discriminate|]. set (s := x :: s'). cbn [eat s]. fold s. intros H. right. split; [reflexivity|].
      pose proof (width_first s ltac:(discriminate)) as Fc. pose proof (first_newline _ _ Fc) as Fn. rewrite firstn_skipn in Fn. cbn [hd s] in Fn. fold s in Fn.
      destruct (Ascii.eqb x (ch 10)); [discriminate|]. injection H as <-. exists (firstn (rune_width s) s). split; [symmetry; apply firstn_skipn|]. split; [exact Fc|].
      intros X. apply Fn in X. discriminate X.
    + intros [[N _]|(_ & r & -> & F & N)]; [congruence|]. destruct (first_width r more F) as [W Ne]. pose proof (first_newline r more F) as Fn.
      destruct r as [|x r]; [congruence|]. cbn [app eat]. cbn [app hd] in Fn. destruct (Ascii.eqb x (ch 10)); [exfalso; apply N, Fn; reflexivity|].
      change (x :: r ++ more) with ((x :: r) ++ more). rewrite W, skipn_app, skipn_all, Nat.sub_diag. reflexivity.
  - split.
    + destruct s as [|x s']; [discriminate|]. cbn [eat]. destruct (Ascii.eqb_spec c x) as [<-|]; [|discriminate]. intros H. injection H as ->. auto.
    + intros [[_ ->]|[X _]]; [|congruence]. cbn [eat]. rewrite Ascii.eqb_refl. reflexivity.
Qed.
Lemma one_shorter c s more : one c s more -> length more < length s.
Proof.
  intros [[_ ->]|(_ & r & -> & F & _)]; [cbn; lia|]. destruct (first_width r more F) as [_ Ne]. rewrite app_length. destruct r; [congruence|cbn; lia].
Qed.
Definition tail_items : list item := [(Chr "/", false); (AnyRune, true)].

(** the loop of a starred item *)
Fixpoint star_loop (l : list item) (a : atom) (n : nat) (s : bytes) : bool :=
  match_items l s || match n with 0 => false | S n' => match eat a s with Some s' => star_loop l a n' s' | None => false end end.
Lemma star_is l a n : forall s, (fix star (n : nat) (s : bytes) {struct n} : bool :=
         match_items l s || match n with 0 => false | S n' => match eat a s with Some s' => star n' s' | None => false end end) n s = star_loop l a n s.
Proof. induction n as [|n IH]; intros s; cbn [star_loop]; [reflexivity|]. destruct (eat a s); [rewrite IH|]; reflexivity. Qed.

Lemma no_star url : starred_url url -> forall u, url <> "*"%char :: u.
Proof. intros H u E. subst url. inversion H as [|c u' Hc|c u' Hc]; subst; (destruct Hc as [[Hc _]|Hc]; [apply Hc; vm_compute; auto 6|discriminate Hc]). Qed.
Lemma no_star_app url x : starred_url url -> (forall u, x <> "*"%char :: u) -> forall u, url ++ x <> "*"%char :: u.
Proof. intros H Hx u E. destruct url as [|c url]; [exact (Hx u E)|]. injection E as -> _. exact (no_star _ H url eq_refl). Qed.
Lemma atom_ok c : ordinary c \/ c = "."%char -> (if Ascii.eqb c "." then Some AnyRune else if special c then None else Some (Chr c)) = Some (atom_of c).
Proof.
  unfold atom_of. intros [[N L]| ->]; [|reflexivity]. destruct (Ascii.eqb c "."); [reflexivity|]. replace (special c) with false; [reflexivity|].
  symmetry. unfold special. apply orb_false_iff. split; [|apply N.ltb_ge; lia].
  apply not_true_is_false. intros X. apply existsb_exists in X as (d & I & E). apply Ascii.eqb_eq in E. subst d. exact (N I).
Qed.
Lemma items_one c p : ordinary c \/ c = "."%char -> (forall u, p <> "*"%char :: u) -> items (c :: p) = option_map (cons (atom_of c, false)) (items p).
Proof.
  intros Hc Hp. cbn [items]. rewrite (atom_ok c Hc). destruct p as [|d p]; [reflexivity|]. destruct (Ascii.eqb_spec d "*") as [->|Nd]; [exfalso; exact (Hp p eq_refl)|].
  destruct d as [[] [] [] [] [] [] [] []]; try reflexivity. congruence.
Qed.
Lemma items_star c p : ordinary c \/ c = "."%char -> items (c :: "*"%char :: p) = option_map (cons (atom_of c, true)) (items p).
Proof. intros Hc. cbn [items]. rewrite (atom_ok c Hc). reflexivity. Qed.

Lemma starred_items url : starred_url url -> exists l, items (url ++ B"/.*") = Some (l ++ tail_items) /\
  forall path, match_items (l ++ tail_items) path = true <-> exists rest, star_match url path ("/"%char :: rest).
Proof.
  intros H. induction H as [|c url Hc Hu (l & El & IH)|c url Hc Hu (l & El & IH)].
  - exists []. split; [reflexivity|]. intros path. unfold tail_items; cbn [app]. split.
    + destruct path as [|x path]; [discriminate|]. cbn [match_items]; unfold eat. destruct (Ascii.eqb_spec "/"%char x) as [<-|]; [|discriminate]. intros _. exists path. constructor.
    + intros [rest D]. inversion D; subst. change (match_items [(AnyRune, true)] rest = true). apply match_end.
  - exists ((atom_of c, false) :: l). split.
    + cbn [app]. rewrite items_one by (first [exact Hc|refine (no_star_app url _ Hu _); intros u X; discriminate X]). rewrite El. reflexivity.
    + intros path. cbn [app match_items]. split.
      * destruct (eat (atom_of c) path) as [more|] eqn:E; [|discriminate]. intros M. apply IH in M as [rest D]. exists rest.
        apply (SmOne c url path more); [exact (no_star _ Hu)|apply eat_one; exact E|exact D].
      * intros [rest D]. inversion D as [|c' u t more r Nu O D'|c' u t r D'|c' u t more r O D']; subst.
        -- apply eat_one in O. rewrite O. apply IH. exists rest. exact D'.
        -- exfalso. exact (no_star _ Hu _ eq_refl).
        -- exfalso. exact (no_star _ Hu _ eq_refl).
  - exists ((atom_of c, true) :: l). split.
    + cbn [app]. rewrite items_star by exact Hc. rewrite El. reflexivity.
    + intros path. cbn [app match_items]. rewrite star_is. generalize (le_n (length path)). generalize (length path) at 2 3. intros n. revert path.
      induction n as [|n IHn]; intros path Ln; cbn [star_loop]; rewrite orb_true_iff, IH.
      * split.
        -- intros [[rest D]|X]; [|discriminate]. exists rest. constructor. exact D.
        -- intros [rest D]. left. inversion D as [|c' u t more r Nu O D'|c' u t r D'|c' u t more r O D']; subst.
           ++ exfalso. exact (Nu _ eq_refl).
           ++ exists rest. exact D'.
           ++ apply one_shorter in O. lia.
      * split.
        -- intros [[rest D]|X]; [exists rest; constructor; exact D|]. destruct (eat (atom_of c) path) as [more|] eqn:E; [|discriminate].
           apply eat_one in E. pose proof (one_shorter _ _ _ E). apply IHn in X as [rest D]; [|lia]. exists rest. exact (SmMore _ _ _ _ _ E D).
        -- intros [rest D]. inversion D as [|c' u t more r Nu O D'|c' u t r D'|c' u t more r O D']; subst.
           ++ exfalso. exact (Nu _ eq_refl).
           ++ left. exists rest. exact D'.
           ++ right. pose proof (one_shorter _ _ _ O). apply eat_one in O. rewrite O. apply IHn; [lia|]. exists rest. exact D'.
Qed.
Lemma starred_compile other url : starred_url url -> exists f, compile other (mount_expr url) = Some f /\
  forall path, f path = true <-> exists rest, star_match url path ("/"%char :: rest).
Proof.
  intros H. destruct (starred_items url H) as (l & El & Hl). exists (match_items (l ++ tail_items)). split; [|exact Hl].
  unfold compile, mount_expr. rewrite El. reflexivity.
Qed.

(** Any mount whose expression compiles: what it answers is what the expression matches. *)
Theorem C157_any_mount : forall (U : Type) other dir_fs fresh_set order os1 os2 o url f (sv : srv U) m path old s,
  any_order order -> setup other dir_fs fresh_set new_srv (os1 ++ o :: os2) = Ok sv -> Forall proper (os1 ++ o :: os2) ->
  mounts o url -> compile other (B"^" ++ url ++ B"/.*") = Some f -> set_of dir_fs fresh_set o = Some s ->
  (forall o', In o' (os1 ++ os2) -> ~ claims other o' m path) ->
  (In m [B"GET"; B"HEAD"] /\ f path = true -> srv_find order sv m path old = (TFound s, [])) /\
  (~ (In m [B"GET"; B"HEAD"] /\ f path = true) -> srv_find order sv m path old = (TNotFound, [])).
Proof.
  intros U other dir_fs fresh_set order os1 os2 o url f sv m path old s Ho Hs Hw Hm Hd0 Hset Hno.
  assert (Hd : compile other (mount_expr url) = Some f) by exact Hd0. clear Hd0.
  assert (Hcl : claims other o m path <-> In m [B"GET"; B"HEAD"] /\ f path = true).
  { assert (X : claims other o m path <-> In m [B"GET"; B"HEAD"] /\ exists f, compile other (mount_expr url) = Some f /\ f path = true)
      by (destruct o; cbn [mounts] in Hm; try contradiction; subst; reflexivity).
    rewrite X, Hd. split.
    - intros (G & f' & E & M). injection E as <-. auto.
    - intros (G & M). split; [exact G|]. eexists. split; [reflexivity|exact M]. }
  assert (Only : forall o', In o' (os1 ++ o :: os2) -> claims other o' m path -> o' = o).
  { intros o' Hin Hc. apply in_app_or in Hin as [Hin|[Hin|Hin]]; [|auto|]; exfalso; apply (Hno o'); auto; apply in_or_app; auto. }
  assert (Nf : forall s' a, srv_find order sv m path old = (TFound s', a) -> s' = s /\ a = [] /\ claims other o m path).
  { intros s' a F. destruct (found_cases other dir_fs fresh_set order _ sv m path old s' a Ho Hs Hw F) as ((o' & Hin & Hc & Hs') & A).
    assert (Eo := Only o' Hin Hc). subst o'. split; [congruence|]. split; [|exact Hc].
    destruct A as [->|(o2 & Hin2 & Hc2 & Np)]; [reflexivity|]. exfalso. apply Np. rewrite (Only o2 Hin2 Hc2).
    destruct o; cbn [mounts] in Hm; try contradiction; reflexivity. }
  split.
  - intros [G Bl].
    destruct (setup_tables other dir_fs fresh_set _ sv Hs) as [T1 T2 T3 T4].
    unfold srv_find in *. destruct (C15_path_routes_first _ (srv_matches sv) order (sv_top sv) (sv_rt sv) m path old) as [A1 A2].
    destruct (tree_find (sv_top sv) m path old) as [[s0| | |] a0] eqn:E.
    { specialize (A1 s0 a0 eq_refl). rewrite A1. destruct (Nf s0 a0 A1) as (-> & -> & _). reflexivity. }
    all: destruct A2 as [A2 _]; [intros ? ? X; discriminate X|].
    all: assert (Hr : In (MethodGetHead, f, s) (expr_reg other dir_fs fresh_set o))
      by (destruct o; cbn [mounts] in Hm; try contradiction; subst; unfold expr_reg; rewrite Hd; rewrite Hset; left; reflexivity).
    all: assert (Hr' : In (MethodGetHead, f, s) (flat_map (expr_reg other dir_fs fresh_set) (os1 ++ o :: os2))) by (apply in_flat_map; exists o; split; [apply in_elt|exact Hr]).
    all: apply In_nth_error in Hr' as [k Ek].
    all: assert (N : In (MethodGetHead, k, s) (number 0 (flat_map (expr_reg other dir_fs fresh_set) (os1 ++ o :: os2)))) by (apply (number_In other dir_fs fresh_set); eauto).
    all: destruct (C13_regexp_lookup _ (srv_matches sv) order _ _ m path Ho T2) as ((_ & K) & _ & _).
    all: assert (Hk : srv_matches sv k path = true)
      by (assert (Z : nth_error (sv_exprs sv) k = Some f) by (rewrite T3; exact (map_nth_error _ k _ Ek));
          unfold srv_matches; rewrite Z; exact Bl).
    all: destruct K as (s1 & a1 & F); [exists (MethodGetHead, k, s); split; [exact N|]; split; [apply covers_gethead; exact G|exact Hk]|].
    all: specialize (A2 s1 a1 F); rewrite A2; destruct (Nf s1 [] A2) as (-> & _ & _); reflexivity.
  - intros N. eapply (not_found other dir_fs fresh_set); [|exact Hs]. intros s' a F. destruct (Nf s' a F) as (_ & _ & Hc). apply N, Hcl, Hc.
Qed.
(** A star in a mount point repeats the character before it. *)
Theorem C157_starred_mount : forall (U : Type) other dir_fs fresh_set order os1 os2 o url (sv : srv U) m path old s,
  any_order order -> setup other dir_fs fresh_set new_srv (os1 ++ o :: os2) = Ok sv -> Forall proper (os1 ++ o :: os2) ->
  mounts o url -> starred_url url -> set_of dir_fs fresh_set o = Some s ->
  (forall o', In o' (os1 ++ os2) -> ~ claims other o' m path) ->
  (In m [B"GET"; B"HEAD"] /\ (exists rest, star_match url path ("/"%char :: rest)) -> srv_find order sv m path old = (TFound s, [])) /\
  (~ (In m [B"GET"; B"HEAD"] /\ (exists rest, star_match url path ("/"%char :: rest))) -> srv_find order sv m path old = (TNotFound, [])).
Proof.
  intros U other dir_fs fresh_set order os1 os2 o url sv m path old s Ho Hs Hw Hm Hd Hset Hno.
  destruct (starred_compile other url Hd) as (f & Ef & Hf).
  destruct (C157_any_mount U other dir_fs fresh_set order os1 os2 o url f sv m path old s Ho Hs Hw Hm Ef Hset Hno) as [A1 A2].
  split; [intros [G X]; apply A1; split; [exact G|apply Hf; exact X]|intros N; apply A2; intros [G X]; apply N; split; [exact G|apply Hf; exact X]].
Qed.
(** [StaticFileFS("/files", "/v1*", ...)] *)
Definition w_setup : list (op nat) := [OStaticFileFS (B"/files") (B"/v1*") x_fs []].
Definition w_srv : srv nat := match setup y_other y_dir y_set new_srv w_setup with Ok sv => sv | Panic => new_srv end.
Example C157_case : setup y_other y_dir y_set new_srv w_setup = Ok w_srv /\ Forall proper w_setup /\ starred_url (B"/v1*") /\
  mounts (OStaticFileFS (B"/files") (B"/v1*") x_fs [] : op nat) (B"/v1*") /\
  star_match (B"/v1*") (B"/v11/a") (B"/a") /\
  srv_find (fun l => l) w_srv (B"GET") (B"/v11/a") [] = (TFound (0, HEmbed x_fs (B"files") (B"v1*")), []) /\
  srv_find (fun l => l) w_srv (B"GET") (B"/v/a") [] = (TFound (0, HEmbed x_fs (B"files") (B"v1*")), []) /\
  srv_find (fun l => l) w_srv (B"GET") (B"/v1*/a") [] = (TNotFound, []).
Proof.
  split; [reflexivity|]. split; [repeat constructor|].
  assert (O : forall c, In c (B"/v1") -> ordinary c \/ c = "."%char).
  { intros c Hc. left. vm_compute in Hc. repeat (destruct Hc as [<-|Hc]; [split; [vm_compute; intuition discriminate|reflexivity]|]). destruct Hc. }
  split. { apply SuOne; [apply O; vm_compute; auto|]. apply SuOne; [apply O; vm_compute; auto|]. apply SuStar; [apply O; vm_compute; auto|]. constructor. }
  split; [reflexivity|].
  split. { eapply SmOne; [intros u X; discriminate X|left; split; [discriminate|reflexivity]|].
    eapply SmOne; [intros u X; discriminate X|left; split; [discriminate|reflexivity]|].
    eapply SmMore; [left; split; [discriminate|reflexivity]|]. eapply SmMore; [left; split; [discriminate|reflexivity]|]. apply SmNone. apply SmEnd. }
  split; [reflexivity|]. split; reflexivity.
Qed.
Print Assumptions C157_any_mount.
Print Assumptions C157_starred_mount.
