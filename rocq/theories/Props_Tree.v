(** Property theorems for path routing: C01-C12, C77. *)
From Coq Require Import Strings.String.
From Verif Require Import Base GoStrings M_Tree S_Route S_Path P_TreeFind P_TreeRep P_TreeSpec P_Path.

(** Histories used as concrete instances: method, route, id of the handler set. *)
Definition mk (l : list (bytes * string * nat)) : list (reg nat) :=
  List.map (fun x => Reg (fst (fst x)) (B (snd (fst x))) (snd x)) l.
Definition G := MethodGet.
Definition P := MethodPost.
Notation "x '@' y '#' z" := (x, y%string, z) (at level 9, y at next level, z at next level).

(** ** C01 *)
Theorem C01_literal_router_is_a_map :
  forall (HS : Type) (regs : list (reg HS)) (m path : bytes) (old : args),
    forallb (fun r => literal_routeb (r_route r)) regs = true ->
    tree_find (routed regs) m path old
    = match latest (fun r => same_segs (segments (r_route r)) (segments path)
                             && covers (r_method r) m) regs with
      | Some r => (TFound (r_set r), [])
      | None => (TNotFound, [])
      end.
Proof. exact @literal_find. Qed.
Print Assumptions C01_literal_router_is_a_map.

Definition ex_lit := mk [G@"/"#0; G@"/a/b"#1; P@"a/b/"#2; MethodGetPost@"/a"#3; G@"/a/b"#4].
Example C01_hypothesis_met : forallb (fun r => literal_routeb (r_route r)) ex_lit = true.
Proof. reflexivity. Qed.
Example C01_instance :
  tree_find (routed ex_lit) G (B" /a/b/") [(B"x", B"y")] = (TFound 4, []) /\
  tree_find (routed ex_lit) P (B"a/b") [] = (TFound 2, []) /\
  tree_find (routed ex_lit) P (B"a/b/c") [] = (TNotFound, []).
Proof. repeat split. Qed.

(** ** C02 *)
Theorem C02_routing_sound :
  forall (HS : Type) (regs : list (reg HS)) (m path : bytes) (old : args) (s : HS) (a : args),
    forallb (fun r => wf_routeb (r_route r)) regs = true ->
    tree_find (routed regs) m path old = (TFound s, a) ->
    exists r, In r regs /\ r_set r = s /\ covers (r_method r) m = true
              /\ fits (pattern_of (r_route r)) (segments path)
              /\ a = bindings (pattern_of (r_route r)) (segments path).
Proof.
  intros HS regs m path old s a Hw H. rewrite tree_find_ref in H by exact Hw.
  apply ref_find_sound in H as (pat & rm & Hin & Hc & Hf & Hb).
  apply in_map_iff in Hin as [r [E Hr]]. unfold entry_of in E. injection E as <- <- <-.
  exists r. auto.
Qed.
Print Assumptions C02_routing_sound.

Definition ex_par := mk [P@"/"#1; P@"/a/:id/borrow"#2; P@"/a/:id"#3; P@"/b/:login"#4;
  P@"/b/:login/admin"#5; P@"/b/:login/user"#6; P@"/b/:login/:id/user"#7].
Example C02_hypotheses_met :
  forallb (fun r => wf_routeb (r_route r)) ex_par = true /\
  tree_find (routed ex_par) P (B"/b/vasya/123/user") []
  = (TFound 7, [(B"login", B"vasya"); (B"id", B"123")]).
Proof. split; reflexivity. Qed.

(** ** C03 *)
Theorem C03_unambiguous_route_found :
  forall (HS : Type) (before after : list (reg HS)) (r : reg HS) (m path : bytes) (old : args),
    forallb (fun r => wf_routeb (r_route r)) (before ++ r :: after) = true ->
    covers (r_method r) m = true ->
    fits (pattern_of (r_route r)) (segments path) ->
    (forall r', In r' (before ++ after) -> ~ prefix_fits (pattern_of (r_route r')) (segments path)) ->
    tree_find (routed (before ++ r :: after)) m path old
    = (TFound (r_set r), bindings (pattern_of (r_route r)) (segments path)).
Proof.
  intros HS before after r m path old Hw Hc Hf Hno.
  rewrite tree_find_ref by exact Hw. unfold ref_find.
  rewrite (endpoints_unique (segments path) (map entry_of (before ++ r :: after)) []
             (pattern_of (r_route r)) (r_method r, r_set r) (map entry_of (before ++ after))).
  - simpl. unfold answer. simpl. rewrite Hc. reflexivity.
  - apply Permutation_sym. change (pattern_of (r_route r), (r_method r, r_set r)) with (entry_of r).
    rewrite !map_app. apply Permutation_middle.
  - exact Hf.
  - intros e He. apply in_map_iff in He as [r' [<- Hr']]. apply Hno. exact Hr'.
Qed.
Print Assumptions C03_unambiguous_route_found.

Example C03_hypotheses_met :
  let before := mk [G@"/b/:x"#1; G@"/a/:y/z"#2] in
  let r := Reg G (B"/a/:id/:k") 3 in
  let after := mk [G@"/a/:id"#4; P@"/:u/b/q/r"#5] in
  forallb (fun r => wf_routeb (r_route r)) (before ++ r :: after) = true /\
  covers (r_method r) G = true /\
  fits (pattern_of (r_route r)) (segments (B"/a/7/w")) /\
  (forall r', In r' (before ++ after) ->
     ~ prefix_fits (pattern_of (r_route r')) (segments (B"/a/7/w"))) /\
  tree_find (routed (before ++ r :: after)) G (B"/a/7/w") []
  = (TFound 3, [(B"id", B"7"); (B"k", B"w")]).
Proof.
  cbv zeta. split; [reflexivity|]. split; [reflexivity|]. split.
  { repeat constructor. }
  split; [|reflexivity].
  intros r' Hr'. simpl in Hr'. repeat (destruct Hr' as [<-|Hr']); [..|contradiction];
    cbn -[prefix_fits]; intros (p1 & p2 & E & F);
    repeat match goal with
      | H : Forall2 _ ?p (_ :: _) |- _ => inversion H; clear H; subst
      | H : Forall2 _ ?p [] |- _ => inversion H; clear H; subst
      | H : fits _ _ |- _ => unfold fits in H
      | H : _ :: _ = _ ++ _ |- _ => cbn [app] in H; injection H; clear H; intros; subst
      | H : [] = _ ++ _ |- _ => cbn [app] in H; discriminate H
      end; discriminate.
Qed.

(** ** C04: refuted; the part that holds *)
Theorem C04_registered_routes_reachable_refuted :
  ~ (forall (HS : Type) (regs : list (reg HS)) (m path : bytes) (old : args) (r : reg HS),
       forallb (fun r => wf_routeb (r_route r)) regs = true ->
       In r regs -> covers (r_method r) m = true ->
       fits (pattern_of (r_route r)) (segments path) ->
       exists s a, tree_find (routed regs) m path old = (TFound s, a)).
Proof.
  intros H.
  destruct (H nat (mk [G@"/a/:id"#1; P@"/a/:id"#2]) P (B"/a/7") [] (Reg P (B"/a/:id") 2))
    as (s & a & E).
  - reflexivity.
  - simpl. auto.
  - reflexivity.
  - repeat constructor.
  - vm_compute in E. discriminate.
Qed.

(** second witness, with one method only: a longer literal route registered
    first hides a parametric route *)
Example C04_shadowing_witness :
  tree_find (routed (mk [G@"/a/b/c"#1; G@"/a/:id"#2])) G (B"/a/b") [] = (TNotFound, []).
Proof. reflexivity. Qed.

(** What holds: if every registration with a prefix fitting the path fits it
    entirely and answers the method, the request is routed.  Missing from the
    full statement: the requests where some registration overlaps the path only
    by a prefix, or is registered for other methods. *)
Theorem C04_registered_routes_reachable_partial :
  forall (HS : Type) (regs : list (reg HS)) (m path : bytes) (old : args),
    forallb (fun r => wf_routeb (r_route r)) regs = true ->
    (exists r, In r regs /\ fits (pattern_of (r_route r)) (segments path)) ->
    (forall r, In r regs -> prefix_fits (pattern_of (r_route r)) (segments path) ->
               fits (pattern_of (r_route r)) (segments path) /\ covers (r_method r) m = true) ->
    exists s a, tree_find (routed regs) m path old = (TFound s, a).
Proof.
  intros HS regs m path old Hw (r & Hr & Hf) Hall. rewrite tree_find_ref by exact Hw.
  apply ref_find_reachable.
  - exists (entry_of r). split; [apply in_map; exact Hr|exact Hf].
  - intros e He Hp. apply in_map_iff in He as [r' [<- Hr']]. apply Hall; assumption.
Qed.
Print Assumptions C04_registered_routes_reachable_partial.

Example C04_partial_instance :
  tree_find (routed (mk [MethodGetPost@"/a/:x"#1; G@"/:u/b"#2; G@"/:u/:v"#3])) G (B"/a/b") []
  = (TFound 1, [(B"x", B"b")]).
Proof. reflexivity. Qed.

(** ** C05 *)
Theorem C05_reference_semantics :
  forall (HS : Type) (regs : list (reg HS)) (m path : bytes) (old : args),
    forallb (fun r => wf_routeb (r_route r)) regs = true ->
    tree_find (routed regs) m path old = ref_find (map entry_of regs) m (segments path).
Proof. exact @tree_find_ref. Qed.
Print Assumptions C05_reference_semantics.

Example C05_hypothesis_met :
  forallb (fun r => wf_routeb (r_route r)) ex_par = true /\
  ref_find (map entry_of ex_par) P (segments (B"/a/x/borrow")) = (TFound 2, [(B"id", B"x")]).
Proof. split; reflexivity. Qed.

(** ** C06: refuted; the parts that hold *)
Theorem C06_later_registrations_do_not_disturb_refuted :
  ~ (forall (HS : Type) (regs : list (reg HS)) (r : reg HS) (m path : bytes) (old : args) s a,
       forallb (fun r => wf_routeb (r_route r)) (regs ++ [r]) = true ->
       tree_find (routed regs) m path old = (TFound s, a) ->
       ~ (pattern_of (r_route r) = map Lit (segments path) /\ covers (r_method r) m = true) ->
       tree_find (routed (regs ++ [r])) m path old = (TFound s, a)).
Proof.
  intros H.
  specialize (H nat (mk [G@"/a/c"#1; G@"/:x/b"#2]) (Reg G (B"/a/b/z") 3) G (B"/a/b") []
                2 [(B"x", B"a")]).
  assert (X : tree_find (routed (mk [G@"/a/c"#1; G@"/:x/b"#2] ++ [Reg G (B"/a/b/z") 3]))
                G (B"/a/b") [] = (TFound 2, [(B"x", B"a")])).
  { apply H; [reflexivity|reflexivity|]. intros [E _]. vm_compute in E. discriminate. }
  vm_compute in X. discriminate.
Qed.

(** What holds: a later registration whose first segment is a parameter never
    changes a routed request (other than the root).  (Registrations that do not
    overlap the path: C77.)  Missing: later registrations that begin with a
    literal equal to the first path segment. *)
Theorem C06_later_registrations_do_not_disturb_partial :
  forall (HS : Type) (regs : list (reg HS)) (r : reg HS) (m path : bytes) (old : args) s a,
    forallb (fun r => wf_routeb (r_route r)) (regs ++ [r]) = true ->
    tree_find (routed regs) m path old = (TFound s, a) ->
    segments path <> [] ->
    (exists name rest, pattern_of (r_route r) = Par name :: rest) ->
    tree_find (routed (regs ++ [r])) m path old = (TFound s, a).
Proof.
  intros HS regs r m path old s a Hw H Hp (nm & rest & Er).
  rewrite tree_find_ref in H by (rewrite forallb_app in Hw; apply andb_true_iff in Hw; tauto).
  rewrite tree_find_ref by exact Hw. rewrite map_app. simpl map. unfold ref_find in *.
  destruct (endpoints_late_par (segments path) (map entry_of regs) [] (entry_of r))
    as [R ER]; [|exact Hp|].
  - unfold entry_of. cbn [fst]. rewrite Er. exact I.
  - rewrite ER. destruct (endpoints (segments path) (map entry_of regs) []) as [|[hs b] l];
      [discriminate|]. exact H.
Qed.
Print Assumptions C06_later_registrations_do_not_disturb_partial.

(** ** C77 *)
Theorem C77_unrelated_registration_changes_nothing :
  forall (HS : Type) (regs : list (reg HS)) (r : reg HS) (m path : bytes) (old : args),
    forallb (fun r => wf_routeb (r_route r)) (regs ++ [r]) = true ->
    ~ prefix_fits (pattern_of (r_route r)) (segments path) ->
    tree_find (routed (regs ++ [r])) m path old = tree_find (routed regs) m path old.
Proof.
  intros HS regs r m path old Hw Hno.
  rewrite !tree_find_ref by (try exact Hw; rewrite forallb_app in Hw; apply andb_true_iff in Hw; tauto).
  unfold ref_find. rewrite map_app. simpl map.
  rewrite (endpoints_frame (segments path) (map entry_of regs) [] (entry_of r) Hno). reflexivity.
Qed.
Print Assumptions C77_unrelated_registration_changes_nothing.

Example C77_hypotheses_met :
  forallb (fun r => wf_routeb (r_route r)) (ex_par ++ [Reg G (B"/a/:z/q") 9]) = true /\
  ~ prefix_fits (pattern_of (B"/a/:z/q")) (segments (B"/a/1/borrow")).
Proof.
  split; [reflexivity|]. intros (p1 & p2 & E & F). cbn in E, F. unfold fits in F.
  repeat match goal with
      | H : Forall2 _ ?p (_ :: _) |- _ => inversion H; clear H; subst
      | H : Forall2 _ ?p [] |- _ => inversion H; clear H; subst
      | H : _ :: _ = _ ++ _ |- _ => cbn [app] in H; injection H; clear H; intros; subst
      | H : [] = _ ++ _ |- _ => cbn [app] in H; discriminate H
      end; discriminate.
Qed.

(** ** C07 *)
Theorem C07_paths_normalised :
  forall (w1 : bytes) (k1 : nat) (segs : list bytes) (k2 : nat) (w2 : bytes),
    segs <> [] -> Forall (fun s => s <> [] /\ no_slash s) segs ->
    blank w1 -> blank w2 ->
    (k1 <> 0 \/ ~ starts_blank (hd [] segs)) -> ~ ends_blank (last segs []) ->
    split_path (w1 ++ slashes k1 ++ join "/"%char segs ++ slashes k2 ++ w2) = B"/" :: segs.
Proof. exact split_path_normal. Qed.
Print Assumptions C07_paths_normalised.

Theorem C07_root_paths :
  forall (w1 : bytes) (k : nat) (w2 : bytes),
    blank w1 -> blank w2 -> split_path (w1 ++ slashes k ++ w2) = [B"/"].
Proof. exact split_path_root. Qed.

Theorem C07_root_first_no_slash_inside :
  forall path, exists segs, split_path path = B"/" :: segs /\ Forall no_slash segs.
Proof.
  intros path. exists (segments path).
  exact (conj (split_path_shape path) (segments_no_slash path)).
Qed.

Example C07_hypotheses_met :
  let segs := [B"a b"; B"c"; B".."] in
  segs <> [] /\ Forall (fun s => s <> [] /\ no_slash s) segs /\
  blank (B" ") /\ ~ ends_blank (last segs []) /\
  split_path (B" " ++ slashes 2 ++ join "/"%char segs ++ slashes 3 ++ []) = B"/" :: segs.
Proof.
  cbv zeta. split; [discriminate|]. split.
  { repeat constructor; try discriminate; unfold no_slash; simpl; intuition discriminate. }
  split; [change (B" ") with (B" " ++ []); constructor; [constructor; reflexivity|constructor]|].
  split; [|reflexivity].
  intros (t & r & Hr & E). simpl in E.
  destruct Hr as [x H|x y H|x y z H].
  - change ["."%char; "."%char] with (["."%char] ++ ["."%char]) in E. apply app_inj_tail in E as [_ <-]. discriminate.
  - change [x; y] with ([x] ++ [y]) in E. rewrite app_assoc in E.
    change ["."%char; "."%char] with (["."%char] ++ ["."%char]) in E. apply app_inj_tail in E as [_ <-].
    apply space2_lead in H. cbv in H. intuition discriminate.
  - change [x; y; z] with ([x; y] ++ [z]) in E. rewrite app_assoc in E.
    change ["."%char; "."%char] with (["."%char] ++ ["."%char]) in E. apply app_inj_tail in E as [_ <-].
    apply space3_lead in H. cbv in H. intuition discriminate.
Qed.

(** the condition on the last segment is needed: a blank before a trailing slash *)
Example C07_condition_needed :
  split_path (B"a/ ") = [B"/"; B"a"] /\ split_path (B"a/ /") = [B"/"; B"a"; B""].
Proof. split; reflexivity. Qed.

(** ** C08 *)
(** the methods answered by a registration, written out *)
Definition members (rm : bytes) : list bytes :=
  if beq rm (B"GETPOST") then [B"GET"; B"POST"]
  else if beq rm (B"GETHEAD") then [B"GET"; B"HEAD"]
  else [rm].

Lemma covers_members rm m : covers rm m = true <-> In m (members rm).
Proof.
  unfold covers, members.
  change MethodGetPost with (B"GETPOST"). change MethodGetHead with (B"GETHEAD").
  destruct (beq rm (B"GETPOST")); [|destruct (beq rm (B"GETHEAD"))]; cbn [In];
    rewrite ?orb_true_iff, ?beq_eq; unfold MethodGet, MethodPost, MethodHead;
    generalize (B"GET") (B"POST") (B"HEAD"); intros; intuition congruence.
Qed.

Theorem C08_combined_methods :
  forall (HS : Type) (regs : list (reg HS)) (r : reg HS) (m : bytes) (old : args),
    forallb (fun r => literal_routeb (r_route r)) (regs ++ [r]) = true ->
    (In m (members (r_method r)) ->
       tree_find (routed (regs ++ [r])) m (r_route r) old = (TFound (r_set r), [])) /\
    (~ In m (members (r_method r)) ->
       tree_find (routed (regs ++ [r])) m (r_route r) old
       = tree_find (routed regs) m (r_route r) old).
Proof.
  intros HS regs r m old Hl.
  assert (Hl' : forallb (fun r => literal_routeb (r_route r)) regs = true)
    by (rewrite forallb_app in Hl; apply andb_true_iff in Hl; tauto).
  rewrite !literal_find by assumption. unfold latest. rewrite rev_app_distr. simpl.
  unfold same_segs at 1 3.
  destruct (list_eq_dec (list_eq_dec ascii_dec) (segments (r_route r)) (segments (r_route r)));
    [|contradiction].
  split; intros Hm; cbn [andb].
  - apply covers_members in Hm. rewrite Hm. reflexivity.
  - destruct (covers (r_method r) m) eqn:E; [|reflexivity].
    apply covers_members in E. contradiction.
Qed.
Print Assumptions C08_combined_methods.

Example C08_instance :
  let t := routed (mk [P@"/a"#1; MethodGetHead@"/a"#2; MethodGetPost@"/b"#3]) in
  tree_find t P (B"/a") [] = (TFound 1, []) /\ tree_find t G (B"/a") [] = (TFound 2, []) /\
  tree_find t MethodHead (B"/a") [] = (TFound 2, []) /\
  tree_find t MethodGetHead (B"/a") [] = (TNotFound, []) /\
  tree_find t P (B"/b") [] = (TFound 3, []) /\ tree_find t MethodPut (B"/b") [] = (TNotFound, []).
Proof. repeat split. Qed.

(** ** C09 *)
(** [branch ps top e a] (P_TreeSpec): [a] is what is collected on one path of
    matching nodes from [top] to [e]. *)
Theorem C09_parameters_never_leak :
  forall (HS : Type) (top : node HS) (m path : bytes) (old1 old2 : args),
    (* nothing of the caller's old content survives *)
    tree_find top m path old1 = tree_find top m path old2 /\
    (* nothing found: empty *)
    (fst (tree_find top m path old1) = TNotFound -> snd (tree_find top m path old1) = []) /\
    (* found: exactly what one single branch collects *)
    (n_urlid top = [] -> n_path top = B"/" -> forall s a,
       tree_find top m path old1 = (TFound s, a) ->
       exists e, branch (B"/" :: segments path) top e a
                 /\ lookup_set m (n_handlers e) = Some s).
Proof.
  intros HS top m path old1 old2. split; [reflexivity|]. split.
  - unfold tree_find. destruct (split_path path) as [|x [|y l]];
      [destruct (find_loop _ _ _)|destruct (lookup_set _ _)|destruct (find_loop _ _ _)];
      simpl; congruence.
  - intros Hu Hp s a. apply tree_find_branch; assumption.
Qed.
Print Assumptions C09_parameters_never_leak.

(** for well-formed histories the parameters are those of one registered
    pattern, one per parametric segment: C02.  Instance with an abandoned
    branch that had collected a parameter: *)
Example C09_instance :
  tree_find (routed (mk [G@"/:a/:b/x"#1; G@"/:c/:d/y"#2])) G (B"/1/2/y") [(B"old", B"v")]
  = (TFound 2, [(B"c", B"1"); (B"d", B"2")]) /\
  tree_find (routed (mk [G@"/:a/:b/x"#1; G@"/:c/:d/y"#2])) G (B"/1/2/z") [(B"old", B"v")]
  = (TNotFound, []).
Proof. split; reflexivity. Qed.

(** ** C10 *)
Theorem C10_find_always_returns :
  forall (HS : Type) (top : node HS) (m path : bytes) (old : args),
    exists r a, tree_find top m path old = (r, a) /\ (r = TNotFound \/ exists s, r = TFound s).
Proof.
  intros HS top m path old. destruct (tree_find_total top m path old) as [H1 H2].
  destruct (tree_find top m path old) as [[s| | |] a]; simpl in *; try contradiction; eauto 6.
Qed.
Print Assumptions C10_find_always_returns.

(** the search examines at most [node_size top] queue entries: one more unit of
    fuel is enough for it to finish *)
Theorem C10_bounded_steps :
  forall (HS : Type) (top : node HS) (m : bytes) (segs : list bytes) (fuel : nat),
    node_size top < fuel ->
    find_loop fuel m [QEnt top (B"/" :: segs) []] <> FFuel /\
    find_loop fuel m [QEnt top (B"/" :: segs) []] <> FPanic.
Proof.
  intros HS top m segs fuel Hf.
  destruct (node_ok (B"/") top) eqn:Hok.
  - pose proof (find_loop_level fuel m (B"/" :: segs) [(top, [])] []) as L.
    cbn [tl qs map app fst snd reaches flat_map] in L. rewrite !app_nil_r in L. rewrite L.
    + unfold decide. destruct (hd_error _) as [[n a]|]; [|split; discriminate].
      destruct (lookup_set m (n_handlers n)); split; discriminate.
    + constructor; [exact Hok|constructor].
    + constructor.
    + simpl. lia.
  - destruct fuel as [|fuel]; [lia|]. cbn [find_loop q_path q_node].
    unfold node_ok in Hok. apply orb_false_iff in Hok as [E1 E2].
    apply negb_false_iff in E1. rewrite E1, E2. split; discriminate.
Qed.
Print Assumptions C10_bounded_steps.

Example C10_instance : node_size (routed ex_par) = 14.
Proof. reflexivity. Qed.

(** ** C11 *)
Theorem C11_returned_set_was_registered :
  forall (HS : Type) (regs : list (reg HS)) (m path : bytes) (old : args) (s : HS) (a : args),
    tree_find (routed regs) m path old = (TFound s, a) ->
    exists r, In r regs /\ covers (r_method r) m = true /\ r_set r = s.
Proof. exact @any_provenance. Qed.
Print Assumptions C11_returned_set_was_registered.

Example C11_malformed_instance :
  tree_find (routed (mk [G@"/a//:/:x/"#1; P@"//::y///b "#2])) G (B"/a///q") []
  = (TFound 1, [(B"x", B"q")]) /\
  tree_find (routed (mk [G@"/a//b"#1])) G (B"a//b") [] = (TFound 1, []).
Proof. split; reflexivity. Qed.

(** ** C12: refuted (soundness for malformed routes); C11 is the part that holds *)
Theorem C12_soundness_any_route_refuted :
  ~ (forall (HS : Type) (regs : list (reg HS)) (m path : bytes) (old : args) (s : HS) (a : args),
       tree_find (routed regs) m path old = (TFound s, a) ->
       exists r, In r regs /\ r_set r = s /\ covers (r_method r) m = true
                 /\ fits (pattern_of (r_route r)) (segments path)).
Proof.
  intros H.
  destruct (H nat (mk [G@"/b/:x/y"#1; G@"/b//z"#2]) G (B"/b/q/y") [] 2 [(B"x", B"q")])
    as (r & Hr & Hs & _ & Hf); [reflexivity|].
  destruct Hr as [<-|[<-|[]]]; [discriminate|].
  vm_compute in Hf. inversion Hf as [|? ? ? ? _ F]; subst.
  inversion F as [|? ? ? ? E _]; subst. discriminate.
Qed.

Theorem C12_soundness_any_route_partial :
  forall (HS : Type) (regs : list (reg HS)) (m path : bytes) (old : args) (s : HS) (a : args),
    tree_find (routed regs) m path old = (TFound s, a) ->
    exists r, In r regs /\ covers (r_method r) m = true /\ r_set r = s.
Proof. exact @any_provenance. Qed.

(** ** Mirrors of the repository's own tests (tree_test.go, tree_2_test.go):
    agreement of the model with the observed behaviour of the code. *)
Example T_SplitPath :
  split_path (B"") = [B"/"] /\ split_path (B"/") = [B"/"] /\
  split_path (B"/work") = [B"/"; B"work"] /\ split_path (B".") = [B"/"; B"."] /\
  split_path (B"/a/b/c/") = [B"/"; B"a"; B"b"; B"c"].
Proof. repeat split. Qed.

Definition tree_top1 := mk [P@"/"#1; P@"/work"#2].
Example T_TreeTop1 :
  tree_find (routed tree_top1) P (B"/") [] = (TFound 1, []) /\
  tree_find (routed tree_top1) P (B"") [] = (TFound 1, []).
Proof. split; reflexivity. Qed.

Definition tree_level1 := mk [P@"/"#1; P@"/work/bork/pork"#2; P@"/work/bork"#3; P@"/work/cork"#4;
                              P@"/walk/"#5; G@"/walk/"#5].
Example T_TreeLevel1_1 :
  tree_find (routed tree_level1) P (B"/work") [] = (TNotFound, []) /\
  tree_find (routed tree_level1) P (B"/work/cork") [] = (TFound 4, []).
Proof. split; reflexivity. Qed.

Definition tree_ids2 := mk [P@"/"#1; P@"/a/:id/borrow"#2; P@"/a/:id"#3; P@"/b/:login"#4;
  P@"/b/:login/admin"#5; P@"/b/:login/user"#6; P@"/b/:login/:login/user"#7].
Example T_TreeUrlIDs_2 :
  tree_find (routed tree_ids2) P (B"/b/vasya/user") [] = (TFound 6, [(B"login", B"vasya")]) /\
  tree_find (routed tree_ids2) P (B"/b/vasya/petrov/user") []
  = (TFound 7, [(B"login", B"vasya"); (B"login", B"petrov")]).
Proof. split; reflexivity. Qed.

Definition tree_ids4 := ex_par ++ mk [P@"/a/:id/:login/admin"#8; P@"/a/:id/:login/user"#9;
  P@"/a/:id/:login/user/account"#10; MethodGetPost@"/a/:id/user/account"#11].
Example T_TreeUrlIDs_4 :
  tree_find (routed tree_ids4) P (B"/a/tennis player/Jean-Julien Rojer/user") []
  = (TFound 9, [(B"id", B"tennis player"); (B"login", B"Jean-Julien Rojer")]) /\
  tree_find (routed tree_ids4) P (B"/a/tennis player/Jean-Julien Rojer/user/account") []
  = (TFound 10, [(B"id", B"tennis player"); (B"login", B"Jean-Julien Rojer")]).
Proof. split; reflexivity. Qed.

Definition tree_ads := List.map (fun x => Reg MethodGetPost (B (fst x)) (snd x : nat))
  [("/my-ads"%string, 0); ("/my-ads/upload"%string, 1); ("/my-ads/list"%string, 2);
   ("/my-ads/take/:id"%string, 3); ("/my-ads/take/:id/json"%string, 4);
   ("/my-ads/take/:id/thumbnails"%string, 5); ("/my-ads/:id/property/update"%string, 6);
   ("/my-ads/:id/condition/:condition/add"%string, 7);
   ("/my-ads/:id/condition/:condition/del"%string, 8);
   ("/my-ads/:id/video_search/count"%string, 9); ("/my-ads/attached_video/:id"%string, 10);
   ("/advertiser/profile"%string, 11); ("/advertiser/profile/data"%string, 12);
   ("/advertiser/profile/budget/add"%string, 13)].
Example T_TreeOneMore :
  tree_find (routed tree_ads) P (B"/my-ads/attached_video/51") [] = (TFound 10, [(B"id", B"51")]).
Proof. reflexivity. Qed.
