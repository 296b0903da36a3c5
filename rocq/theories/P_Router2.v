(** Proofs about handler sets whose user never calls HandlerSet.Clone (C30, C32). *)
From Verif Require Import Base GoSlices M_Router S_Router P_Slices P_Router.

Definition ext (st : state) : list slice := flat_map rsl (st_routers st) ++ st_vars st.
Definition setsl (st : state) : list slice := flat_map ssl (st_sets st).
Definition regs (st : state) : list slice := flat_map (fun g => ssl (g_set g)) (st_routes st).

(** distinct owners, distinct arrays *)
Definition odisj (l1 l2 : list slice) : Prop := forall s t, In s l1 -> In t l2 -> disj s t.
Definition pd {A} (f : A -> slice * slice) (l : list A) : Prop :=
  (forall i x, nth_error l i = Some x -> disj (fst (f x)) (snd (f x))) /\
  (forall i j x y, i <> j -> nth_error l i = Some x -> nth_error l j = Some y ->
     odisj [fst (f x); snd (f x)] [fst (f y); snd (f y)]).
Definition sobj (x : hset) := (s_before x, s_after x).
Definition robj (x : router) := (r_before x, r_after x).

Lemma odisj_sym l1 l2 : odisj l1 l2 -> odisj l2 l1.
Proof. intros H s t Hs Ht. apply disj_sym. auto. Qed.

Lemma pd_upd {A} (f : A -> slice * slice) l i x' :
  pd f l -> disj (fst (f x')) (snd (f x')) ->
  (forall j y, j <> i -> nth_error l j = Some y -> odisj [fst (f x'); snd (f x')] [fst (f y); snd (f y)]) ->
  pd f (upd_nth i (fun _ => x') l).
Proof.
  intros [P1 P2] D O. split.
  - intros j y H. rewrite nth_error_upd_nth in H. destruct (j =? i) eqn:E.
    + destruct (nth_error l j); [|discriminate]. simpl in H. injection H as <-. exact D.
    + exact (P1 j y H).
  - intros j k x y N Hx Hy. rewrite nth_error_upd_nth in Hx, Hy.
    destruct (j =? i) eqn:Ej; destruct (k =? i) eqn:Ek.
    + apply Nat.eqb_eq in Ej, Ek. lia.
    + destruct (nth_error l j); [|discriminate]. injection Hx as <-. apply Nat.eqb_neq in Ek. exact (O k y Ek Hy).
    + destruct (nth_error l k); [|discriminate]. injection Hy as <-. apply Nat.eqb_neq in Ej.
      apply odisj_sym. exact (O j x Ej Hx).
    + exact (P2 j k x y N Hx Hy).
Qed.
Lemma pd_app {A} (f : A -> slice * slice) l x' :
  pd f l -> disj (fst (f x')) (snd (f x')) ->
  (forall y, In y l -> odisj [fst (f x'); snd (f x')] [fst (f y); snd (f y)]) ->
  pd f (l ++ [x']).
Proof.
  intros [P1 P2] D O.
  assert (L : forall j y, nth_error (l ++ [x']) j = Some y -> nth_error l j = Some y \/ (j = length l /\ y = x')).
  { intros j y H. destruct (Nat.lt_ge_cases j (length l)) as [Hj|Hj].
    - left. rewrite nth_error_app1 in H by exact Hj. exact H.
    - right. rewrite nth_error_app2 in H by exact Hj. destruct (j - length l) as [|n] eqn:E.
      + simpl in H. injection H as <-. split; [lia|reflexivity].
      + simpl in H. destruct n; discriminate. }
  split.
  - intros j y H. destruct (L j y H) as [H'|[_ ->]]; [exact (P1 j y H')|exact D].
  - intros j k x y N Hx Hy. destruct (L j x Hx) as [Hx'|[Ej ->]]; destruct (L k y Hy) as [Hy'|[Ek ->]].
    + exact (P2 j k x y N Hx' Hy').
    + apply odisj_sym. apply O. apply nth_error_In in Hx'. exact Hx'.
    + apply O. apply nth_error_In in Hy'. exact Hy'.
    + lia.
Qed.

Record inv30 (st : state) : Prop := Inv30 {
  i_ext : forall s, In s (ext st) -> wfs (st_heap st) s;
  i_sets : forall s, In s (setsl st) -> wfs (st_heap st) s;
  i_regs : forall s, In s (regs st) -> wfs (st_heap st) s;
  i_es : odisj (ext st) (setsl st);
  i_er : odisj (ext st) (regs st);
  i_pd : pd sobj (st_sets st);
  i_sr : forall s t, In s (setsl st) -> In t (regs st) -> behind s t
}.
Lemma inv30_init : inv30 init.
Proof.
  constructor; unfold odisj, ext, setsl, regs; simpl; try (intros; contradiction). split.
  - intros [|] ? ?; discriminate.
  - intros [|] ? ? ? ? ?; discriminate.
Qed.

(** ** Operations that touch neither handler sets nor routes *)
Definition ext_op (o : op) : bool :=
  match o with
  | NewRouter | RFirst _ _ | RBefore _ _ | RAfter _ _ | RLastAfter _ _ | RLast _ _ | RClone _
  | RGetBefore _ | RGetAfter _ | CMake _ _ | CWrite _ _ _ | CAppend _ _ | CSlice _ _ _ => true
  | _ => false
  end.
Definition proj (st : state) : state := State (st_heap st) (st_routers st) [] (st_vars st) [].

Lemma proj_step grow st o st' : ext_op o = true -> step grow st o = Ok st' ->
  step grow (proj st) o = Ok (proj st') /\ st_sets st' = st_sets st /\ st_routes st' = st_routes st.
Proof.
  intros He H. unfold proj.
  destruct o; try discriminate; cbn [step st_heap st_routers st_vars] in *; unfold eval_arg in *;
    cbn [step st_heap st_routers st_vars] in *;
    repeat match goal with
    | H : context [match ?e with _ => _ end] |- _ => destruct e; try discriminate
    | H : Ok _ = Ok _ |- _ => injection H as <-
    end; repeat split.
Qed.

Lemma shared_proj st : forall s, In s (shared (proj st)) <-> In s (ext st).
Proof. intros s. unfold shared, ext, proj. simpl. rewrite !in_app_iff. simpl. tauto. Qed.

Lemma ext_step grow st o st' : inv30 st -> ext_op o = true -> step grow st o = Ok st' ->
  inv30 st' /\ st_sets st' = st_sets st /\ st_routes st' = st_routes st /\
  (forall p, In p (setsl st) \/ In p (regs st) -> read (st_heap st') p = read (st_heap st) p).
Proof.
  intros I He H. destruct (proj_step grow st o st' He H) as (Hp & Es & Er).
  assert (Ef : effect (proj st) (proj st')).
  { apply (step_effect grow _ o). - intros s Hs. apply shared_proj in Hs. apply (i_ext st I s Hs). - exact Hp. }
  assert (Hn : forall s, In s (ext st') -> wfs (st_heap st') s /\ derived (st_heap st) (shared (proj st)) s).
  { intros s Hs. apply shared_proj in Hs. exact (ef_shared _ _ Ef s Hs). }
  assert (DD : forall l, odisj (ext st) l -> (forall p, In p l -> wfs (st_heap st) p) -> odisj (ext st') l).
  { intros l D W s p Hs Hp'. destruct (Hn s Hs) as [_ [X|[X|X]]].
    - destruct X as (s0 & H0 & Ea & Ec). apply shared_proj in H0.
      destruct (D s0 p H0 Hp') as [Y|[Y|Y]]; [left; auto|right; left; exact Y|right; right; congruence].
    - destruct (W p Hp') as [_ [Y|[Y _]]]; [right; left; exact Y|right; right; lia].
    - left; exact X. }
  pose proof (ef_ext _ _ Ef) as X. cbn [proj st_heap] in X.
  split; [|split; [exact Es|split; [exact Er|]]].
  - constructor; unfold setsl, regs; rewrite ?Es, ?Er.
    + intros s Hs. apply (Hn s Hs).
    + intros s Hs. exact (wfs_ext _ _ _ X (i_sets st I s Hs)).
    + intros s Hs. exact (wfs_ext _ _ _ X (i_regs st I s Hs)).
    + apply (DD _ (i_es st I) (i_sets st I)).
    + apply (DD _ (i_er st I) (i_regs st I)).
    + exact (i_pd st I).
    + exact (i_sr st I).
  - intros p Hp'. pose proof (ef_read _ _ Ef p) as R. cbn [proj st_heap] in R.
    apply R.
    + destruct Hp' as [Hp'|Hp']; [exact (i_sets st I p Hp')|exact (i_regs st I p Hp')].
    + intros s Hs. apply shared_proj in Hs. destruct Hp' as [Hp'|Hp'].
      * exact (i_es st I s p Hs Hp').
      * exact (i_er st I s p Hs Hp').
Qed.

(** ** Appending to one list of a handler set *)
Lemma fresh_disj h s t : length h <= sl_arr s -> wfs h t -> disj s t.
Proof. intros H [_ [W|[W _]]]; [right; left; exact W|right; right; lia]. Qed.

Lemma append_disj grow h s xs h' s' t : wfs h s -> wfs h t -> append grow h s xs = (h', s') ->
  disj s t -> disj s' t.
Proof.
  intros Ws Wt H D. destruct (append_spec grow h s xs h' s' Ws H) as (_ & _ & _ & _ & [(E & _ & C & _)|(E & _)]).
  - destruct D as [D|[D|D]]; [left; congruence|right; left; exact D|right; right; congruence].
  - apply (fresh_disj h); [lia|exact Wt].
Qed.
Lemma append_behind grow h s xs h' s' t : wfs h s -> wfs h t -> append grow h s xs = (h', s') ->
  behind s t -> behind s' t.
Proof.
  intros Ws Wt H [D|D]; [left; exact (append_disj grow h s xs h' s' t Ws Wt H D)|].
  destruct (append_spec grow h s xs h' s' Ws H) as (_ & _ & _ & _ & [(E & O & C & L)|(E & _)]).
  - right. lia.
  - left. apply (fresh_disj h); [lia|exact Wt].
Qed.

(** replacing the lists of one handler set *)
Lemma set_replace st h' i x x' :
  inv30 st -> heap_ext (st_heap st) h' -> nth_error (st_sets st) i = Some x ->
  wfs h' (s_before x') -> wfs h' (s_after x') -> disj (s_before x') (s_after x') ->
  (forall s', In s' (ssl x') -> forall t, wfs (st_heap st) t ->
      (forall s, In s (ssl x) -> disj s t) -> disj s' t) ->
  (forall s' t, In s' (ssl x') -> In t (regs st) -> behind s' t) ->
  inv30 (set_set st h' i x').
Proof.
  intros I X Ex W1 W2 D DD BB.
  assert (Si : forall s, In s (ssl x) -> In s (setsl st)).
  { intros s Hs. exact (In_flat_map_nth ssl s _ i x Ex Hs). }
  assert (Sn : forall s, In s (setsl (set_set st h' i x')) -> In s (setsl st) \/ In s (ssl x')).
  { intros s Hs. apply In_flat_map_upd in Hs. exact Hs. }
  constructor; cbn [set_set st_heap].
  - intros s Hs. exact (wfs_ext _ _ _ X (i_ext st I s Hs)).
  - intros s Hs. destruct (Sn s Hs) as [Hs'|[<-|[<-|[]]]]; auto. exact (wfs_ext _ _ _ X (i_sets st I s Hs')).
  - intros s Hs. exact (wfs_ext _ _ _ X (i_regs st I s Hs)).
  - intros s t Hs Ht. destruct (Sn t Ht) as [Ht'|Ht'].
    + exact (i_es st I s t Hs Ht').
    + apply disj_sym. apply (DD t Ht' s (i_ext st I s Hs)). intros u Hu. apply disj_sym.
      exact (i_es st I s u Hs (Si u Hu)).
  - exact (i_er st I).
  - apply (pd_upd sobj _ i x' (i_pd st I)); [exact D|].
    intros j y Nj Hy s t Hs Ht.
    assert (Wt : wfs (st_heap st) t) by (apply (i_sets st I); exact (In_flat_map_nth ssl t _ j y Hy Ht)).
    apply (DD s Hs t Wt). intros u Hu. destruct (i_pd st I) as [_ P].
    exact (P i j x y (fun E => Nj (eq_sym E)) Ex Hy u t Hu Ht).
  - intros s t Hs Ht. destruct (Sn s Hs) as [Hs'|Hs']; [exact (i_sr st I s t Hs' Ht)|exact (BB s t Hs' Ht)].
Qed.

(** value of a variadic argument *)
Definition argval (st : state) (a : arg) : list hid :=
  match a with
  | Fresh xs _ => xs
  | Var v => match nth_error (st_vars st) v with Some s => read (st_heap st) s | None => [] end
  end.
(** what an operation adds to the before (after) list of set [s] *)
Definition adds_before (st : state) (s : nat) (o : op) : list hid :=
  match o with SBefore s' a => if s' =? s then argval st a else [] | _ => [] end.
Definition adds_after (st : state) (s : nat) (o : op) : list hid :=
  match o with SAfter s' a => if s' =? s then argval st a else [] | _ => [] end.

(** summary of one step *)
Record step30 (st : state) (o : op) (st' : state) : Prop := Step30 {
  z_inv : inv30 st';
  z_regs : forall t, In t (regs st) -> read (st_heap st') t = read (st_heap st) t;
  z_routes : exists rs, st_routes st' = st_routes st ++ rs;
  z_sets : forall s x, nth_error (st_sets st) s = Some x ->
     exists x', nth_error (st_sets st') s = Some x' /\
       read (st_heap st') (s_before x') = read (st_heap st) (s_before x) ++ adds_before st s o /\
       read (st_heap st') (s_after x') = read (st_heap st) (s_after x) ++ adds_after st s o;
  z_new : forall s x', nth_error (st_sets st') s = Some x' -> nth_error (st_sets st) s = None ->
     read (st_heap st') (s_before x') = [] /\ read (st_heap st') (s_after x') = []
}.

Lemma nth_error_upd_len {A} i (y : A) l s x' :
  nth_error (upd_nth i (fun _ => y) l) s = Some x' -> nth_error l s = None -> False.
Proof.
  intros H1 H2. rewrite nth_error_upd_nth, H2 in H1. destruct (s =? i); discriminate.
Qed.

Lemma eval_arg_val st a h1 s : eval_arg st a = Ok (h1, s) ->
  (forall v, In v (st_vars st) -> wfs (st_heap st) v) -> read h1 s = argval st a.
Proof.
  intros H Hv. destruct (eval_arg_spec st a h1 s H Hv) as (_ & _ & _ & _ & Sp).
  destruct a as [xs e|v]; simpl; [apply Sp|]. destruct Sp as [-> ->]. reflexivity.
Qed.

Lemma fresh_or_empty h s t : length h <= sl_arr s \/ sl_cap s = 0 -> wfs h t -> disj s t.
Proof. intros [H|H] W; [exact (fresh_disj h s t H W)|left; exact H]. Qed.

Lemma step30_holds grow st o st' :
  inv30 st -> (forall s, o <> SClone s) -> step grow st o = Ok st' -> step30 st o st'.
Proof.
  intros I Hc H. destruct (ext_op o) eqn:He.
  { destruct (ext_step grow st o st' I He H) as (I' & Es & Er & R). constructor.
    - exact I'.
    - intros t Ht. auto.
    - exists []. rewrite app_nil_r. exact Er.
    - intros s x Hx. exists x. rewrite Es. split; [exact Hx|].
      assert (A : adds_before st s o = [] /\ adds_after st s o = []) by (destruct o; try discriminate; auto).
      destruct A as [-> ->]. rewrite !app_nil_r.
      split; apply R; left; apply (In_flat_map_nth ssl _ _ s x Hx); simpl; auto.
    - intros s x' H1 H2. rewrite Es in H1. congruence. }
  assert (Hv : forall v, In v (st_vars st) -> wfs (st_heap st) v).
  { intros v Hv. apply (i_ext st I). unfold ext. apply in_app_iff. auto. }
  destruct o; try discriminate; try (exfalso; exact (Hc _ eq_refl)).
  - (* RUse *)
    cbn [step] in H.
    destruct (nth_error (st_routers st) r) as [x|] eqn:Ex; [|discriminate].
    destruct (new_set (st_heap st)) as [h1 s0] eqn:E0.
    destruct (new_set_spec _ _ _ E0) as (N1 & N2 & N3 & N4 & N5 & N6 & N7 & N8 & N9 & N10).
    unfold set_after, set_before in H.
    destruct (append grow h1 (s_after s0) (read h1 (r_after x))) as [h2 a] eqn:E1.
    cbn [s_before s_after s_last s_main] in H.
    destruct (append grow h2 (s_before s0) (read h2 (r_before x))) as [h3 b] eqn:E2.
    injection H as <-.
    destruct (append_spec _ _ _ _ _ _ N3 E1) as (B1 & B2 & B3 & B4 & B5).
    pose proof (wfs_ext _ _ _ B1 N2) as N2'.
    destruct (append_spec _ _ _ _ _ _ N2' E2) as (C1 & C2 & C3 & C4 & C5).
    assert (X : heap_ext (st_heap st) h3) by exact (heap_ext_trans _ _ _ (heap_ext_trans _ _ _ N1 B1) C1).
    assert (Rd : forall t, wfs (st_heap st) t -> read h3 t = read (st_heap st) t).
    { intros t Wt. pose proof (wfs_ext _ _ _ N1 Wt) as W1. pose proof (wfs_ext _ _ _ B1 W1) as W2.
      rewrite C4; [|exact W2|left; left; exact N6].
      rewrite B4; [|exact W1|left; left; exact N7]. apply N10; exact Wt. }
    assert (Fb : length (st_heap st) <= sl_arr b) by (destruct C5 as [(E & _)|(E & _)]; [lia|destruct N1, B1; lia]).
    assert (Fa : length (st_heap st) <= sl_arr a) by (destruct B5 as [(E & _)|(E & _)]; [lia|destruct N1; lia]).
    set (g := Reg k (set_use (set_last (HSet b a (s_last s0) (s_main s0)) (r_last x)) m) true).
    assert (Rg : forall t, In t (regs (State h3 (st_routers st) (st_sets st) (st_vars st) (st_routes st ++ [g]))) ->
       In t (regs st) \/ (wfs h3 t /\ length (st_heap st) <= sl_arr t)).
    { intros t Ht. unfold regs in Ht. simpl in Ht. rewrite flat_map_app in Ht. apply in_app_iff in Ht as [Ht|Ht]; [auto|].
      right. cbn in Ht. destruct Ht as [<-|[<-|[]]]; auto. split; [exact (wfs_ext _ _ _ C1 B2)|exact Fa]. }
    constructor.
    + constructor; simpl.
      * intros s Hs. exact (wfs_ext _ _ _ X (i_ext st I s Hs)).
      * intros s Hs. exact (wfs_ext _ _ _ X (i_sets st I s Hs)).
      * intros t Ht. destruct (Rg t Ht) as [Ht'|[W _]]; [exact (wfs_ext _ _ _ X (i_regs st I t Ht'))|exact W].
      * exact (i_es st I).
      * intros s t Hs Ht. destruct (Rg t Ht) as [Ht'|[_ F]]; [exact (i_er st I s t Hs Ht')|].
        apply disj_sym. exact (fresh_disj _ t s F (i_ext st I s Hs)).
      * exact (i_pd st I).
      * intros s t Hs Ht. destruct (Rg t Ht) as [Ht'|[_ F]]; [exact (i_sr st I s t Hs Ht')|].
        left. apply disj_sym. exact (fresh_disj _ t s F (i_sets st I s Hs)).
    + intros t Ht. apply Rd. exact (i_regs st I t Ht).
    + eexists. reflexivity.
    + intros s y Hy. exists y. split; [exact Hy|]. simpl. rewrite !app_nil_r.
      split; apply Rd; apply (i_sets st I), (In_flat_map_nth ssl _ _ s y Hy); simpl; auto.
    + simpl. intros s y H1 H2. congruence.
  - (* NewSet *)
    cbn [step] in H. destruct (new_set (st_heap st)) as [h1 s0] eqn:E0. injection H as <-.
    destruct (new_set_spec _ _ _ E0) as (N1 & N2 & N3 & N4 & N5 & N6 & N7 & N8 & N9 & N10).
    assert (Sn : forall s, In s (flat_map ssl (st_sets st ++ [s0])) ->
        In s (setsl st) \/ (wfs h1 s /\ sl_cap s = 0)).
    { intros s Hs. rewrite flat_map_app in Hs. apply in_app_iff in Hs as [Hs|Hs]; [auto|].
      right. cbn in Hs. destruct Hs as [<-|[<-|[]]]; auto. }
    constructor.
    + constructor; simpl.
      * intros s Hs. exact (wfs_ext _ _ _ N1 (i_ext st I s Hs)).
      * intros s Hs. destruct (Sn s Hs) as [Hs'|[W _]]; [exact (wfs_ext _ _ _ N1 (i_sets st I s Hs'))|exact W].
      * intros s Hs. exact (wfs_ext _ _ _ N1 (i_regs st I s Hs)).
      * intros s t Hs Ht. destruct (Sn t Ht) as [Ht'|[_ W]]; [exact (i_es st I s t Hs Ht')|right; left; exact W].
      * exact (i_er st I).
      * apply (pd_app sobj _ s0 (i_pd st I)); [left; exact N6|].
        intros y Hy s t Hs Ht. left. destruct Hs as [<-|[<-|[]]]; auto.
      * intros s t Hs Ht. destruct (Sn s Hs) as [Hs'|[_ W]]; [exact (i_sr st I s t Hs' Ht)|left; left; exact W].
    + intros t Ht. apply N10. exact (i_regs st I t Ht).
    + exists []. rewrite app_nil_r. reflexivity.
    + intros s y Hy. exists y. simpl. split; [rewrite nth_error_app1; [exact Hy|apply nth_error_Some; congruence]|].
      rewrite !app_nil_r.
      split; apply N10; apply (i_sets st I), (In_flat_map_nth ssl _ _ s y Hy); simpl; auto.
    + simpl. intros s y H1 H2. apply nth_error_None in H2. rewrite nth_error_app2 in H1 by exact H2.
      destruct (s - length (st_sets st)) as [|n]; [|destruct n; discriminate]. injection H1 as <-. auto.
  - (* SBefore *)
    cbn [step] in H. destruct (nth_error (st_sets st) s) as [x|] eqn:Ex; [|discriminate].
    destruct (eval_arg st a) as [[h1 sa]|] eqn:Ea; [|discriminate].
    destruct (eval_arg_spec st a h1 sa Ea Hv) as (A1 & A2 & A3 & A4 & _).
    pose proof (eval_arg_val st a h1 sa Ea Hv) as Av.
    assert (Ib : In (s_before x) (setsl st)) by (apply (In_flat_map_nth ssl _ _ s x Ex); simpl; auto).
    assert (Ia : In (s_after x) (setsl st)) by (apply (In_flat_map_nth ssl _ _ s x Ex); simpl; auto).
    unfold set_before in H. pose proof (wfs_ext _ _ _ A1 (i_sets st I _ Ib)) as Wb.
    destruct (append grow h1 (s_before x) (read h1 sa)) as [h2 b] eqn:E1. injection H as <-.
    destruct (append_spec _ _ _ _ _ _ Wb E1) as (B1 & B2 & B3 & B4 & B5).
    assert (X : heap_ext (st_heap st) h2) by exact (heap_ext_trans _ _ _ A1 B1).
    destruct (i_pd st I) as [P1 P2].
    assert (Rd : forall t, wfs (st_heap st) t -> behind (s_before x) t -> read h2 t = read (st_heap st) t).
    { intros t Wt Bt. rewrite B4; [apply A4; exact Wt|exact (wfs_ext _ _ _ A1 Wt)|exact Bt]. }
    constructor.
    + apply (set_replace st h2 s x _ I X Ex); cbn [s_before s_after].
      * exact B2.
      * exact (wfs_ext _ _ _ X (i_sets st I _ Ia)).
      * apply (append_disj _ _ _ _ _ _ _ Wb (wfs_ext _ _ _ A1 (i_sets st I _ Ia)) E1). exact (P1 s x Ex).
      * intros s' Hs' t Wt Dt. destruct Hs' as [<-|[<-|[]]].
        -- apply (append_disj _ _ _ _ _ _ _ Wb (wfs_ext _ _ _ A1 Wt) E1). apply Dt. simpl; auto.
        -- apply Dt. simpl; auto.
      * intros s' t Hs' Ht. destruct Hs' as [<-|[<-|[]]].
        -- apply (append_behind _ _ _ _ _ _ _ Wb (wfs_ext _ _ _ A1 (i_regs st I t Ht)) E1).
           exact (i_sr st I _ t Ib Ht).
        -- exact (i_sr st I _ t Ia Ht).
    + intros t Ht. apply Rd; [exact (i_regs st I t Ht)|exact (i_sr st I _ t Ib Ht)].
    + exists []. rewrite app_nil_r. reflexivity.
    + intros j y Hy. cbn [set_set st_sets st_heap adds_before adds_after]. rewrite nth_error_upd_nth, Hy, app_nil_r.
      destruct (Nat.eqb_spec j s) as [->|N].
      * rewrite Ex in Hy. injection Hy as ->. simpl. eexists. split; [reflexivity|]. cbn [s_before s_after].
        rewrite Nat.eqb_refl, B3, Av. split; [f_equal; apply A4; exact (i_sets st I _ Ib)|].
        apply Rd; [exact (i_sets st I _ Ia)|left; exact (P1 s y Ex)].
      * exists y. split; [reflexivity|]. rewrite (proj2 (Nat.eqb_neq s j)) by auto. rewrite app_nil_r.
        assert (Wy : forall u, In u (ssl y) -> wfs (st_heap st) u /\ behind (s_before x) u).
        { intros u Hu. split; [apply (i_sets st I), (In_flat_map_nth ssl _ _ j y Hy Hu)|].
          left. apply (P2 s j x y (fun E => N (eq_sym E)) Ex Hy); simpl; auto. }
        split; apply Rd; apply Wy; simpl; auto.
    + intros j y H1 H2. exfalso. exact (nth_error_upd_len _ _ _ _ _ H1 H2).
  - (* SAfter *)
    cbn [step] in H. destruct (nth_error (st_sets st) s) as [x|] eqn:Ex; [|discriminate].
    destruct (eval_arg st a) as [[h1 sa]|] eqn:Ea; [|discriminate].
    destruct (eval_arg_spec st a h1 sa Ea Hv) as (A1 & A2 & A3 & A4 & _).
    pose proof (eval_arg_val st a h1 sa Ea Hv) as Av.
    assert (Ib : In (s_before x) (setsl st)) by (apply (In_flat_map_nth ssl _ _ s x Ex); simpl; auto).
    assert (Ia : In (s_after x) (setsl st)) by (apply (In_flat_map_nth ssl _ _ s x Ex); simpl; auto).
    unfold set_after in H. pose proof (wfs_ext _ _ _ A1 (i_sets st I _ Ia)) as Wa.
    destruct (append grow h1 (s_after x) (read h1 sa)) as [h2 b] eqn:E1. injection H as <-.
    destruct (append_spec _ _ _ _ _ _ Wa E1) as (B1 & B2 & B3 & B4 & B5).
    assert (X : heap_ext (st_heap st) h2) by exact (heap_ext_trans _ _ _ A1 B1).
    destruct (i_pd st I) as [P1 P2].
    assert (Rd : forall t, wfs (st_heap st) t -> behind (s_after x) t -> read h2 t = read (st_heap st) t).
    { intros t Wt Bt. rewrite B4; [apply A4; exact Wt|exact (wfs_ext _ _ _ A1 Wt)|exact Bt]. }
    constructor.
    + apply (set_replace st h2 s x _ I X Ex); cbn [s_before s_after].
      * exact (wfs_ext _ _ _ X (i_sets st I _ Ib)).
      * exact B2.
      * apply disj_sym, (append_disj _ _ _ _ _ _ _ Wa (wfs_ext _ _ _ A1 (i_sets st I _ Ib)) E1).
        apply disj_sym. exact (P1 s x Ex).
      * intros s' Hs' t Wt Dt. destruct Hs' as [<-|[<-|[]]].
        -- apply Dt. simpl; auto.
        -- apply (append_disj _ _ _ _ _ _ _ Wa (wfs_ext _ _ _ A1 Wt) E1). apply Dt. simpl; auto.
      * intros s' t Hs' Ht. destruct Hs' as [<-|[<-|[]]].
        -- exact (i_sr st I _ t Ib Ht).
        -- apply (append_behind _ _ _ _ _ _ _ Wa (wfs_ext _ _ _ A1 (i_regs st I t Ht)) E1).
           exact (i_sr st I _ t Ia Ht).
    + intros t Ht. apply Rd; [exact (i_regs st I t Ht)|exact (i_sr st I _ t Ia Ht)].
    + exists []. rewrite app_nil_r. reflexivity.
    + intros j y Hy. cbn [set_set st_sets st_heap adds_before adds_after]. rewrite nth_error_upd_nth, Hy, app_nil_r.
      destruct (Nat.eqb_spec j s) as [->|N].
      * rewrite Ex in Hy. injection Hy as ->. simpl. eexists. split; [reflexivity|]. cbn [s_before s_after].
        rewrite Nat.eqb_refl, B3, Av. split; [|f_equal; apply A4; exact (i_sets st I _ Ia)].
        apply Rd; [exact (i_sets st I _ Ib)|left; apply disj_sym; exact (P1 s y Ex)].
      * exists y. split; [reflexivity|]. rewrite (proj2 (Nat.eqb_neq s j)) by auto. rewrite app_nil_r.
        assert (Wy : forall u, In u (ssl y) -> wfs (st_heap st) u /\ behind (s_after x) u).
        { intros u Hu. split; [apply (i_sets st I), (In_flat_map_nth ssl _ _ j y Hy Hu)|].
          left. apply (P2 s j x y (fun E => N (eq_sym E)) Ex Hy); simpl; auto. }
        split; apply Rd; apply Wy; simpl; auto.
    + intros j y H1 H2. exfalso. exact (nth_error_upd_len _ _ _ _ _ H1 H2).
  - (* SLast *)
    cbn [step] in H. destruct (nth_error (st_sets st) s) as [x|] eqn:Ex; [|discriminate]. injection H as <-.
    assert (Ib : In (s_before x) (setsl st)) by (apply (In_flat_map_nth ssl _ _ s x Ex); simpl; auto).
    assert (Ia : In (s_after x) (setsl st)) by (apply (In_flat_map_nth ssl _ _ s x Ex); simpl; auto).
    constructor.
    + apply (set_replace st _ s x _ I (heap_ext_refl _) Ex); cbn [s_before s_after set_last].
      * apply (i_sets st I). exact Ib.
      * apply (i_sets st I). exact Ia.
      * destruct (i_pd st I) as [P _]. exact (P s x Ex).
      * intros s' Hs' t _ Dt. apply Dt. exact Hs'.
      * intros s' t Hs' Ht. apply (i_sr st I s' t); [|exact Ht]. destruct Hs' as [<-|[<-|[]]]; assumption.
    + reflexivity.
    + exists []. rewrite app_nil_r. reflexivity.
    + intros j y Hy. cbn [set_set st_sets st_heap adds_before adds_after]. rewrite nth_error_upd_nth, Hy, !app_nil_r.
      destruct (Nat.eqb_spec j s) as [->|N]; [|exists y; auto].
      rewrite Ex in Hy. injection Hy as ->. simpl. eexists. split; [reflexivity|]. auto.
    + intros j y H1 H2. exfalso. exact (nth_error_upd_len _ _ _ _ _ H1 H2).
  - (* SUse *)
    cbn [step] in H. destruct (nth_error (st_sets st) s) as [x|] eqn:Ex; [|discriminate]. injection H as <-.
    assert (Ib : In (s_before x) (setsl st)) by (apply (In_flat_map_nth ssl _ _ s x Ex); simpl; auto).
    assert (Ia : In (s_after x) (setsl st)) by (apply (In_flat_map_nth ssl _ _ s x Ex); simpl; auto).
    constructor.
    + apply (set_replace st _ s x _ I (heap_ext_refl _) Ex); cbn [s_before s_after set_use].
      * apply (i_sets st I). exact Ib.
      * apply (i_sets st I). exact Ia.
      * destruct (i_pd st I) as [P _]. exact (P s x Ex).
      * intros s' Hs' t _ Dt. apply Dt. exact Hs'.
      * intros s' t Hs' Ht. apply (i_sr st I s' t); [|exact Ht]. destruct Hs' as [<-|[<-|[]]]; assumption.
    + reflexivity.
    + exists []. rewrite app_nil_r. reflexivity.
    + intros j y Hy. cbn [set_set st_sets st_heap adds_before adds_after]. rewrite nth_error_upd_nth, Hy, !app_nil_r.
      destruct (Nat.eqb_spec j s) as [->|N]; [|exists y; auto].
      rewrite Ex in Hy. injection Hy as ->. simpl. eexists. split; [reflexivity|]. auto.
    + intros j y H1 H2. exfalso. exact (nth_error_upd_len _ _ _ _ _ H1 H2).
  - (* SAdd *)
    cbn [step] in H. destruct s as [s|]; [|discriminate].
    destruct (nth_error (st_sets st) s) as [x|] eqn:Ex; [|discriminate]. injection H as <-.
    assert (Ix : forall u, In u (ssl x) -> In u (setsl st)).
    { intros u Hu. exact (In_flat_map_nth ssl _ _ s x Ex Hu). }
    set (st1 := State (st_heap st) (st_routers st) (st_sets st) (st_vars st)
                 (st_routes st ++ [Reg k (set_use (set_clone x) m) false])).
    assert (Rg : forall t, In t (regs st1) -> In t (regs st) \/ In t (ssl x)).
    { intros t Ht. unfold regs, st1 in Ht. simpl in Ht. rewrite flat_map_app in Ht.
      apply in_app_iff in Ht as [Ht|Ht]; [auto|]. right. cbn in Ht. exact Ht. }
    constructor.
    + constructor; simpl; try apply I.
      * intros t Ht. destruct (Rg t Ht) as [Ht'|Ht']; [exact (i_regs st I t Ht')|exact (i_sets st I t (Ix t Ht'))].
      * intros u t Hu Ht. destruct (Rg t Ht) as [Ht'|Ht']; [exact (i_er st I u t Hu Ht')|exact (i_es st I u t Hu (Ix t Ht'))].
      * intros u t Hu Ht. destruct (Rg t Ht) as [Ht'|Ht']; [exact (i_sr st I u t Hu Ht')|].
        apply in_flat_map in Hu as (y & Hy & Hu). apply In_nth_error in Hy as (j & Hy).
        change (st_sets st1) with (st_sets st) in Hy. destruct (i_pd st I) as [P1 P2].
        destruct (Nat.eq_dec j s) as [->|N].
        -- assert (x = y) by congruence. subst y.
           destruct Hu as [<-|[<-|[]]]; destruct Ht' as [<-|[<-|[]]]; try (right; lia).
           ++ left. exact (P1 s x Ex).
           ++ left. apply disj_sym. exact (P1 s x Ex).
        -- left. exact (P2 j s y x N Hy Ex u t Hu Ht').
    + reflexivity.
    + eexists. reflexivity.
    + intros j y Hy. exists y. split; [exact Hy|]. simpl. rewrite !app_nil_r. auto.
    + simpl. intros j y H1 H2. congruence.
Qed.
