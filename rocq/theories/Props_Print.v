(** C161: the text of a routing table (Tree.String). *)
From Verif Require Import Base GoStrings M_Tree M_Print S_Print S_Route P_Slices P_TreeFind P_TreeRep P_TreeSpec Props_Tree P_Print.
From Coq Require Import Permutation.

Section Text.
  Context {HS : Type}.
  Variable id_of : HS -> bytes.
  Variable order : list nat -> @hmap HS -> @hmap HS.
  Notation tree_string := (tree_string id_of order).
  Notation shows := (shows id_of).
  Notation entries t := (preorder 0 t).

  (** One line for each node, in whatever order the maps are iterated; it panics exactly if a nil handler set was registered. *)
  Theorem C161_text : forall t, (forall pos h, Permutation (order pos h) h) ->
    (forall text, tree_string t = Ok text -> shows t text) /\
    (tree_string t = Panic <-> exists d n m, In (d, n) (entries t) /\ In (m, None) (n_handlers n)).
  Proof.
    intros t Ho. pose proof (print_text id_of order Ho t 0 []) as X. unfold M_Print.tree_string. cbn [repeat] in X.
    destruct (print id_of order [] [] t) as [x|].
    - destruct X as [X N]. split; [intros text E; injection E as <-; exact X|]. split; [discriminate|].
      intros (d & n & m & H & Hm). exfalso. exact (N (d, n) m H Hm).
    - split; [discriminate|]. split; [|reflexivity]. intros _. destruct X as ([d n] & m & H & Hm). exists d, n, m. auto.
  Qed.
  (** Conversely every such text is printed, for some order of the maps. *)
  Theorem C161_possible : forall t text, shows t text ->
    exists order', (forall pos h, Permutation (order' pos h) h) /\ M_Print.tree_string id_of order' t = Ok text.
  Proof.
    intros t text (ls & F & ->). destruct (possible_node id_of t 0 ls F) as (o & P & E). exists o. split; [exact P|]. apply (E o []). reflexivity.
  Qed.
  (** The table can be read off the text. *)
  Theorem C161_unambiguous : forall t t' text, clean id_of t -> clean id_of t' -> shows t text -> shows t' text -> alike id_of t t'.
  Proof. intros t t' text. apply unambiguous. Qed.

  (** the text has a line with this method and handler set *)
  Definition lists (t : node HS) (text m : bytes) (s : HS) : Prop :=
    exists pre line post d n, text = pre ++ line ++ post /\ In (d, n) (entries t) /\ line_of id_of (d, n) line /\ In (m, Some s) (n_handlers n).
  Lemma listed t text d n m s : shows t text -> In (d, n) (entries t) -> In (m, Some s) (n_handlers n) -> lists t text m s.
  Proof.
    intros (ls & F & ->) H Hm. apply in_split in H as (e1 & e2 & E). rewrite E in F.
    apply Forall2_app_inv_l in F as (l1 & l2 & F1 & F2 & ->). inversion F2 as [|? x ? l3 Fx F3]; subst.
    exists (concat l1), x, (concat l3), d, n. split; [rewrite concat_app; reflexivity|]. split; [rewrite E; apply in_elt|]. auto.
  Qed.
  Lemma preorder_child : forall (t : node HS) e d n c, In (d, n) (preorder e t) -> In c (n_children n) -> In (S d, c) (preorder e t).
  Proof.
    induction t as [cs p u h IH] using node_ind'. intros e d n c H Hc. destruct H as [H|H].
    - injection H as <- <-. right. apply in_flat_map. exists c. split; [exact Hc|]. rewrite preorder_eq. left. reflexivity.
    - apply in_flat_map in H as (x & Hx & H). right. apply in_flat_map. exists x. split; [exact Hx|]. rewrite Forall_forall in IH. exact (IH x Hx _ _ _ _ H Hc).
  Qed.
  Lemma aget_In {V} k (v : V) l : aget k l = Some v -> In (k, v) l.
  Proof.
    induction l as [|[k' v'] l IH]; cbn [aget]; [discriminate|]. destruct (beq k k') eqn:E; [|intros H; right; auto].
    apply beq_eq in E. intros H. injection H as ->. subst. left. reflexivity.
  Qed.
  Lemma lookup_In m (h : @hmap HS) s : lookup_set m h = Some s -> In (m, Some s) h.
  Proof. unfold lookup_set. intros H. apply aget_In. destruct (aget m h) as [[x|]|]; congruence. Qed.
  Lemma loop_listed (t : node HS) m fuel : forall q s a, Forall (fun x => exists d, In (d, q_node x) (entries t)) q ->
    find_loop fuel m q = FFound s a -> exists d n, In (d, n) (entries t) /\ In (m, Some s) (n_handlers n).
  Proof.
    induction fuel as [|fuel IH]; intros q s a F E; [discriminate E|]. cbn [find_loop] in E.
    destruct q as [|e q]; [discriminate E|]. inversion F as [|? ? [d Hd] Fq]; subst.
    destruct (q_path e) as [|p0 rest]; [discriminate E|].
    destruct (is_empty (n_urlid (q_node e)) && negb (beq (n_path (q_node e)) p0)); [discriminate E|].
    destruct rest as [|p1 rest].
    - destruct (lookup_set m (n_handlers (q_node e))) as [s'|] eqn:L; [|discriminate E]. injection E as <- _. exists d, (q_node e). split; [exact Hd|apply lookup_In; exact L].
    - apply IH in E; [exact E|]. apply Forall_app. split; [exact Fq|]. apply Forall_forall. intros x Hx. apply in_map_iff in Hx as (c & <- & Hc).
      apply filter_In in Hc as [Hc _]. exists (S d). cbn [q_node]. exact (preorder_child t 0 d _ c Hd Hc).
  Qed.
  (** The handler set that answers a request is listed, with the request's method. *)
  Theorem C161_found : forall t text m path old s a, tree_find t m path old = (TFound s, a) -> shows t text -> lists t text m s.
  Proof.
    intros t text m path old s a E Sh.
    assert (X : exists d n, In (d, n) (entries t) /\ In (m, Some s) (n_handlers n)).
    { unfold tree_find in E.
      assert (Top : lookup_set m (n_handlers t) = Some s -> exists d n, In (d, n) (entries t) /\ In (m, Some s) (n_handlers n)).
      { intros L. exists 0, t. split; [rewrite preorder_eq; left; reflexivity|apply lookup_In; exact L]. }
      assert (Loop : forall ps x, find_loop (S (node_size t)) m [QEnt t ps []] = FFound s x -> exists d n, In (d, n) (entries t) /\ In (m, Some s) (n_handlers n)).
      { intros ps x L. eapply loop_listed; [|exact L]. constructor; [|constructor]. exists 0. rewrite preorder_eq. left. reflexivity. }
      destruct (split_path path) as [|p0 [|p1 ps]].
      - destruct (find_loop (S (node_size t)) m [QEnt t [] []]) eqn:L; try discriminate E. injection E as -> _. exact (Loop _ _ L).
      - destruct (lookup_set m (n_handlers t)) eqn:L; [|discriminate E]. injection E as -> _. exact (Top eq_refl).
      - destruct (find_loop (S (node_size t)) m [QEnt t (p0 :: p1 :: ps) []]) eqn:L; try discriminate E. injection E as -> _. exact (Loop _ _ L). }
    destruct X as (d & n & H & Hm). exact (listed t text d n m s Sh H Hm).
  Qed.

  Lemma fold_length {A} (f : A -> A) idx : forall l, length (fold_left (fun cs i => upd_nth i f cs) idx l) = length l.
  Proof. induction idx as [|i idx IH]; intros l; cbn [fold_left]; [reflexivity|]. rewrite IH. apply upd_nth_length. Qed.
  Lemma fold_last {A} (f : A -> A) idx l : idx <> [] -> Forall (fun i => i < length l) idx ->
    exists c, In (f c) (fold_left (fun cs i => upd_nth i f cs) idx l).
  Proof.
    intros N F. destruct (exists_last N) as (idx' & i & ->). rewrite fold_left_app. cbn [fold_left].
    set (l' := fold_left (fun cs i => upd_nth i f cs) idx' l). apply Forall_app in F as [_ F]. inversion F as [|? ? Hi _]; subst.
    assert (Hl : i < length l') by (unfold l'; rewrite fold_length; exact Hi).
    destruct (nth_error l' i) as [c|] eqn:Ec; [|apply nth_error_None in Ec; lia].
    exists c. apply (nth_error_In _ i). rewrite nth_error_upd_nth, Nat.eqb_refl, Ec. reflexivity.
  Qed.
  Lemma next_bound p u (cs : list (node HS)) : Forall (fun i => i < length cs) (next_nodes p u cs).
  Proof.
    unfold next_nodes. destruct (negb (is_empty u)).
    - apply Forall_forall. intros i Hi. apply in_seq in Hi. lia.
    - assert (X : forall (l : list (node HS)) k, Forall (fun i => i < k + length l) (find_child p l k)).
      { induction l as [|c l IH]; intros k; cbn [find_child length]; [constructor|]. destruct (beq (n_path c) p); [repeat constructor; lia|].
        eapply Forall_impl; [|exact (IH (S k))]. intros i Hi. cbn beta in Hi. lia. }
      exact (X cs 0).
  Qed.
  Definition holds (rm : bytes) (s : HS) (t : node HS) : Prop := exists d n, In (d, n) (entries t) /\ forall m, covers rm m = true -> In (m, Some s) (n_handlers n).
  Lemma preorder_shift : forall (t : node HS) e e' d n, In (d, n) (preorder e t) -> exists d', In (d', n) (preorder e' t).
  Proof.
    induction t as [cs p u h IH] using node_ind'. intros e e' d n [H|H].
    - injection H as <- <-. exists e'. left. reflexivity.
    - apply in_flat_map in H as (x & Hx & H). rewrite Forall_forall in IH. destruct (IH x Hx _ (S e') _ _ H) as [d' H'].
      exists d'. right. apply in_flat_map. exists x. auto.
  Qed.
  Lemma holds_child rm s t c : In c (n_children t) -> holds rm s c -> holds rm s t.
  Proof.
    intros Hc (d & n & H & Hm). destruct (preorder_shift c 0 1 d n H) as [d' H']. exists d', n. split; [|exact Hm].
    rewrite preorder_eq. right. apply in_flat_map. exists c. auto.
  Qed.
  Lemma holds_top rm s t h : n_handlers t = add_method rm h (Some s) -> holds rm s t.
  Proof.
    intros E. exists 0, t. split; [rewrite preorder_eq; left; reflexivity|]. intros m C. apply lookup_In. rewrite E, lookup_add_method, C. reflexivity.
  Qed.
  Lemma holds_chain rm s rest : forall p, holds rm s (chain rm p rest (Some s)).
  Proof.
    induction rest as [|q rest IH]; intros p; cbn [chain]; destruct (get_url_id p) as [a b].
    - eapply holds_top. reflexivity.
    - eapply holds_child; [left; reflexivity|]. apply IH.
  Qed.
  Lemma holds_add rm s rest : forall t p, holds rm s (add_rec t rm p rest (Some s)).
  Proof.
    induction rest as [|q rest IH]; intros t p; cbn [add_rec]; pose proof (next_bound p (n_urlid t) (n_children t)) as Bd;
      destruct (next_nodes p (n_urlid t) (n_children t)) as [|i is].
    - eapply holds_child; [|apply (holds_chain rm s [] p)]. cbn [set_children n_children]. apply in_or_app. right. left. reflexivity.
    - destruct (fold_last (fun c => set_handlers c (add_method rm (n_handlers c) (Some s))) (i :: is) (n_children t)) as [c Hc]; [discriminate|exact Bd|].
      eapply holds_child; [cbn [set_children n_children]; exact Hc|]. eapply holds_top. reflexivity.
    - eapply holds_child; [|apply (holds_chain rm s (q :: rest) p)]. cbn [set_children n_children]. apply in_or_app. right. left. reflexivity.
    - destruct (fold_last (fun c => add_rec c rm q rest (Some s)) (i :: is) (n_children t)) as [c Hc]; [discriminate|exact Bd|].
      eapply holds_child; [cbn [set_children n_children]; exact Hc|]. apply IH.
  Qed.
  (** A handler set that has just been registered is listed, with each method it was registered for. *)
  Theorem C161_registered : forall t rm route s text m, shows (tree_add t rm route (Some s)) text -> covers rm m = true ->
    lists (tree_add t rm route (Some s)) text m s.
  Proof.
    intros t rm route s text m Sh C.
    assert (X : holds rm s (tree_add t rm route (Some s))).
    { unfold tree_add. destruct (split_path route) as [|p0 [|p1 ps]]; [eapply holds_top; reflexivity ..|apply holds_add]. }
    destruct X as (d & n & H & Hm). exact (listed _ text d n m s Sh H (Hm m C)).
  Qed.
End Text.

(** ** Concrete cases *)
Definition v_id (n : nat) : bytes := match n with 0 => B"home" | 1 => B"list" | _ => B"user" end.
Definition v_tree : node nat :=
  tree_add (tree_add (tree_add new_tree MethodGet (B"/") (Some 0)) MethodGetPost (B"/users") (Some 1)) MethodGet (B"/users/:id") (Some 2).
Definition v_text : bytes :=
  B"Path: /, UrlId:  => /GET[home]" ++ [ch 10] ++ [ch 9] ++ B"Path: users, UrlId:  => /GET[list]/POST[list]" ++ [ch 10] ++
  [ch 9; ch 9] ++ B"Path: , UrlId: id => /GET[user]" ++ [ch 10].
Example C161_case : tree_string v_id (fun _ h => h) v_tree = Ok v_text /\ shows v_id v_tree v_text /\ clean v_id v_tree /\
  tree_find v_tree (B"GET") (B"/users/7") [] = (TFound 2, [(B"id", B"7")]) /\
  tree_string v_id (fun _ h => h) (tree_add v_tree MethodPut (B"/users") None) = Panic.
Proof.
  assert (E : tree_string v_id (fun _ h => h) v_tree = Ok v_text) by reflexivity.
  split; [exact E|]. split; [apply (C161_text v_id (fun _ h => h) v_tree); [intros; reflexivity|exact E]|].
  split; [|split; reflexivity]. intros d n H. vm_compute in H.
  destruct H as [H|[H|[H|[]]]]; injection H as _ <-;
    (split; [vm_compute; intuition discriminate|]; split; [vm_compute; intuition discriminate|];
     split; [vm_compute; intuition discriminate|]; split; [vm_compute; intuition discriminate|]; intros m s Hm; vm_compute in Hm;
     repeat (destruct Hm as [Hm|Hm]; [injection Hm as <- <-; vm_compute; intuition discriminate|]); destruct Hm).
Qed.
(** the condition is needed: an ID that looks like an entry *)
Example C161_names : let t := tree_add new_tree MethodGet (B"/") (Some (B"a]/PUT[b")) in
  let t' := tree_add (tree_add new_tree MethodGet (B"/") (Some (B"a"))) MethodPut (B"/") (Some (B"b")) in
  tree_string (fun x => x) (fun _ h => h) t = tree_string (fun x => x) (fun _ h => rev h) t'.
Proof. reflexivity. Qed.

Print Assumptions C161_text.
Print Assumptions C161_possible.
Print Assumptions C161_unambiguous.
Print Assumptions C161_found.
Print Assumptions C161_registered.
