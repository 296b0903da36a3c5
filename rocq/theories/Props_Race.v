(** C75: concurrent registration and lookup. *)
From Verif Require Import Base GoStrings M_Tree M_RegTree M_Race S_Race S_Path P_Path P_Slices.

(** ** Calls that keep a lock of the top node from beginning to end *)
Definition body_ok (m : mode) (b : list instr) : Prop :=
  Forall (fun i => exists w l, i = Acc w l /\ (m = MRead -> w = false)) b.
Definition guarded (tr : list instr) : Prop := exists m b, tr = Lock m [] :: b ++ [Unlock m []] /\ body_ok m b.
Definition okth (th : thread) : Prop :=
  t_held th = [] /\ guarded (t_prog th) \/
  (exists m b, th = Th [(m, [])] (b ++ [Unlock m []]) /\ body_ok m b) \/ th = Th [] [].
Definition okall (ths : list thread) : Prop :=
  (forall i th, nth_error ths i = Some th -> okth th) /\
  (forall i j ti tj m m', i <> j -> nth_error ths i = Some ti -> nth_error ths j = Some tj ->
     In (m, []) (t_held ti) -> In (m', []) (t_held tj) -> excludes m m' = false).

Lemma nth_mid {A} (l1 l2 : list A) x y i :
  nth_error (l1 ++ x :: l2) i = if i =? length l1 then Some x else nth_error (l1 ++ y :: l2) i.
Proof.
  destruct (Nat.eqb_spec i (length l1)) as [->|N].
  - rewrite nth_error_app2, Nat.sub_diag by lia. reflexivity.
  - destruct (Nat.lt_ge_cases i (length l1)) as [L|L].
    + rewrite !nth_error_app1 by exact L. reflexivity.
    + rewrite !nth_error_app2 by exact L. destruct (i - length l1) as [|k] eqn:E; [lia|reflexivity].
Qed.
Lemma okall_step ths ths' : tstep ths ths' -> okall ths -> okall ths'.
Proof.
  intros H [O X]. destruct H as [l1 l2 held m p prog F|l1 l2 held m p prog|l1 l2 held w l prog].
  - set (old := Th held (Lock m p :: prog)) in *. set (new := Th ((m, p) :: held) prog).
    assert (Eo : nth_error (l1 ++ old :: l2) (length l1) = Some old) by (rewrite (nth_mid _ _ old old), Nat.eqb_refl; reflexivity).
    assert (Om : exists b, held = [] /\ p = [] /\ prog = b ++ [Unlock m []] /\ body_ok m b).
    { destruct (O _ _ Eo) as [[H1 (m0 & b & H2 & H3)]|[(m0 & b & H1 & H2)|H1]]; cbn in *.
      - injection H2 as -> -> ->. eauto.
      - injection H1 as _ H1. destruct b as [|x b]; [discriminate|]. inversion H2 as [|? ? (w & l & -> & _)]; subst. discriminate.
      - discriminate. }
    destruct Om as (b & -> & -> & -> & Hb). split.
    + intros i th Hi. rewrite (nth_mid _ _ new old) in Hi. destruct (i =? length l1); [|eapply O; exact Hi].
      injection Hi as <-. right. left. exists m, b. auto.
    + intros i j ti tj m1 m2 N Hi Hj. rewrite (nth_mid _ _ new old) in Hi, Hj.
      destruct (Nat.eqb_spec i (length l1)) as [->|Ni], (Nat.eqb_spec j (length l1)) as [->|Nj]; [congruence| | |exact (X i j ti tj m1 m2 N Hi Hj)].
      * injection Hi as <-. intros Hi Hm. cbn in Hi. destruct Hi as [Hi|[]]. injection Hi as <-.
        apply (F tj m2); [eapply nth_error_In, Hj|exact Hm].
      * injection Hj as <-. intros Hm Hk. cbn in Hk. destruct Hk as [Hk|[]]. injection Hk as <-.
        assert (E : excludes m m1 = false) by (apply (F ti m1); [eapply nth_error_In; exact Hi|exact Hm]).
        destruct m, m1; exact E.
  - set (old := Th held (Unlock m p :: prog)) in *. set (new := Th (release (m, p) held) prog).
    assert (Eo : nth_error (l1 ++ old :: l2) (length l1) = Some old) by (rewrite (nth_mid _ _ old old), Nat.eqb_refl; reflexivity).
    assert (Om : new = Th [] []).
    { destruct (O _ _ Eo) as [[H1 (m0 & b & H2 & H3)]|[(m0 & b & H1 & H2)|H1]]; cbn in *; try discriminate.
      injection H1 as H0 H1. destruct b as [|x b]; cbn in H1.
      - inversion H1; subst. subst new. cbn. destruct m0; reflexivity.
      - inversion H1; subst. inversion H2 as [|? ? (w & l & E & _)]; discriminate. }
    split.
    + intros i th Hi. rewrite (nth_mid _ _ new old) in Hi. destruct (i =? length l1); [|eapply O; exact Hi].
      injection Hi as <-. right. right. exact Om.
    + intros i j ti tj m1 m2 N Hi Hj. rewrite (nth_mid _ _ new old) in Hi, Hj.
      destruct (Nat.eqb_spec i (length l1)) as [->|Ni]; [injection Hi as <-; rewrite Om; intros []|].
      destruct (Nat.eqb_spec j (length l1)) as [->|Nj]; [injection Hj as <-; rewrite Om; intros _ []|]. exact (X i j ti tj m1 m2 N Hi Hj).
  - set (old := Th held (Acc w l :: prog)) in *. set (new := Th held prog).
    assert (Eo : nth_error (l1 ++ old :: l2) (length l1) = Some old) by (rewrite (nth_mid _ _ old old), Nat.eqb_refl; reflexivity).
    assert (Om : okth new).
    { destruct (O _ _ Eo) as [[H1 (m0 & b & H2 & H3)]|[(m0 & b & H1 & H2)|H1]]; cbn in *; try discriminate.
      injection H1 as H0 H1. destruct b as [|x b]; cbn in H1; [discriminate|]. inversion H1; subst.
      right. left. exists m0, b. split; [reflexivity|]. inversion H2; assumption. }
    split.
    + intros i th Hi. rewrite (nth_mid _ _ new old) in Hi. destruct (i =? length l1); [|eapply O; exact Hi].
      injection Hi as <-. exact Om.
    + intros i j ti tj m1 m2 N Hi Hj. rewrite (nth_mid _ _ new old) in Hi, Hj.
      assert (K : forall k tk, (if k =? length l1 then Some new else nth_error (l1 ++ old :: l2) k) = Some tk ->
                exists tk', nth_error (l1 ++ old :: l2) k = Some tk' /\ t_held tk' = t_held tk).
      { intros k tk Hk. destruct (Nat.eqb_spec k (length l1)) as [->|_]; [|eauto]. injection Hk as <-. exists old. auto. }
      destruct (K i ti Hi) as (ti' & Ei & <-), (K j tj Hj) as (tj' & Ej & <-). exact (X i j ti' tj' m1 m2 N Ei Ej).
Qed.
Lemma okall_no_race ths : okall ths -> ~ race ths.
Proof.
  intros [O X] (i & j & h & h' & w & w' & l & r & r' & N & Hi & Hj & W).
  assert (K : forall i h w l r, nth_error ths i = Some (Th h (Acc w l :: r)) -> exists m, In (m, []) h /\ (m = MRead -> w = false)).
  { clear - O. intros i h w l r H. destruct (O i _ H) as [[H1 (m0 & b & H2 & H3)]|[(m0 & b & H1 & H2)|H1]]; cbn in *; try discriminate.
    injection H1 as -> H1. destruct b as [|x b]; cbn in H1; [discriminate|]. injection H1 as <- _. exists m0. split; [left; reflexivity|].
    inversion H2 as [|? ? (w0 & l0 & E & F)]; subst. injection E as -> ->. exact F. }
  destruct (K _ _ _ _ _ Hi) as (m & M1 & M2), (K _ _ _ _ _ Hj) as (m' & M1' & M2').
  pose proof (X i j _ _ m m' N Hi Hj M1 M1') as E. destruct m, m'; try discriminate. destruct W; [rewrite M2 in *|rewrite M2' in *]; auto; discriminate.
Qed.
Lemma guarded_race_free calls : Forall guarded calls -> race_free calls.
Proof.
  intros G ths H. apply okall_no_race. remember (map (Th []) calls) as s eqn:E. induction H as [x|x y z H IH St].
  - subst x. split.
    + intros i th Hi. apply nth_error_In, in_map_iff in Hi as (c & <- & Hc). left. split; [reflexivity|].
      rewrite Forall_forall in G. apply G, Hc.
    + intros i j ti tj m m' _ Hi _ Hm. apply nth_error_In, in_map_iff in Hi as (c & <- & _). destruct Hm.
  - eapply okall_step; [exact St|apply IH, E].
Qed.

Definition accs (b : list instr) : Prop := Forall (fun i => exists w l, i = Acc w l) b.
Lemma accs_write b : accs b -> body_ok MWrite b.
Proof. intros H. eapply Forall_impl; [|exact H]. intros i (w & l & ->). exists w, l. split; [reflexivity|discriminate]. Qed.
Lemma touch_accs p : accs (touch_handlers p) /\ accs (touch_children p).
Proof. split; repeat constructor; eauto. Qed.
Lemma accs_app a b : accs a -> accs b -> accs (a ++ b).
Proof. intros. apply Forall_app. auto. Qed.
Lemma chain_accs rest : forall p k, accs (chain_trace p k rest).
Proof.
  induction rest as [|q rest IH]; intros p k; cbn [chain_trace]; apply accs_app; try apply touch_accs. apply IH.
Qed.
Lemma add_rec_accs {HS} rest : forall (n : node HS) at_ p, accs (add_rec_trace n at_ p rest).
Proof.
  induction rest as [|q rest IH]; intros n at_ p; cbn [add_rec_trace]; constructor; eauto;
    destruct (next_nodes p (n_urlid n) (n_children n)) as [|i next].
  - apply touch_accs.
  - apply Forall_flat_map, Forall_forall. intros j _. apply touch_accs.
  - apply chain_accs.
  - apply Forall_flat_map, Forall_forall. intros j _. destruct (nth_error (n_children n) j); [apply IH|constructor].
Qed.
Lemma add_guarded {HS} (top : node HS) path : guarded (add_trace top path).
Proof.
  unfold add_trace. destruct (split_path path) as [|x [|p rest]]; (eexists MWrite, _; split; [reflexivity|apply accs_write]).
  - apply touch_accs.
  - apply touch_accs.
  - apply add_rec_accs.
Qed.
Lemma root_find_guarded {HS} (top : node HS) path x : split_path path = [x] -> guarded (find_trace top path).
Proof.
  intros E. unfold find_trace. rewrite E. exists MRead, [Acc false (LNode [] FHandlers)]. split; [reflexivity|].
  constructor; [|constructor]. eexists _, _. split; [reflexivity|reflexivity].
Qed.

(** ** Calls that only read *)
Definition reading (tr : list instr) : Prop := forall l, ~ In (Acc true l) tr.
Lemma reading_race_free calls : Forall reading calls -> race_free calls.
Proof.
  intros G ths H.
  assert (I : Forall (fun th => reading (t_prog th)) ths).
  { remember (map (Th []) calls) as s eqn:E. induction H as [x|x y z H IH St].
    - subst x. apply Forall_map. exact G.
    - specialize (IH E). destruct St as [l1 l2 held m p prog F|l1 l2 held m p prog|l1 l2 held w l prog];
        apply Forall_app in IH as [I1 I2]; apply Forall_app; (split; [exact I1|]); inversion I2 as [|? ? Hx Hy]; subst;
        (constructor; [|exact Hy]); cbn [t_prog] in *; intros l' X; apply (Hx l'); right; exact X. }
  intros (i & j & h & h' & w & w' & l & r & r' & N & Hi & Hj & W). rewrite Forall_forall in I.
  apply nth_error_In in Hi, Hj. apply I in Hi, Hj. destruct W as [->| ->]; [apply (Hi l)|apply (Hj l)]; left; reflexivity.
Qed.
Lemma find_loop_reading {HS} fuel : forall (q : list (pos * node HS * list bytes)), reading (find_loop_trace fuel q).
Proof.
  induction fuel as [|fuel IH]; intros q l; cbn [find_loop_trace]; [intros []|].
  destruct q as [|[[at_ n] paths] q]; [intros []|]. destruct paths as [|p0 rest]; [intros []|].
  destruct (is_empty (n_urlid n) && negb (beq (n_path n) p0)); [intros []|]. destruct rest as [|p1 rest].
  - intros [X|[X|[X|[]]]]; discriminate.
  - intros [X|X]; [discriminate|exact (IH _ l X)].
Qed.
Lemma find_reading {HS} (top : node HS) path : reading (find_trace top path).
Proof.
  unfold find_trace. destruct (split_path path) as [|x [|p rest]].
  - apply find_loop_reading.
  - intros l [X|[X|[X|[]]]]; discriminate.
  - apply find_loop_reading.
Qed.

(** ** C75 *)
(** Any calls of Add and Find, started on a tree, do not race. *)
Inductive call {HS} (top : node HS) : list instr -> Prop :=
| Call_add : forall path, call top (add_trace top path)
| Call_find : forall path, call top (find_trace top path).
Definition C75_claim (HS : Type) : Prop := forall (top : node HS) calls, Forall (call top) calls -> race_free calls.

(** proved: any number of registrations and of lookups of the root, whatever tree each sees *)
Theorem C75_add_partial : forall HS calls,
  Forall (fun tr => exists top : node HS, (exists path, tr = add_trace top path) \/
                    exists path x, split_path path = [x] /\ tr = find_trace top path) calls -> race_free calls.
Proof.
  intros HS calls H. apply guarded_race_free. eapply Forall_impl; [|exact H].
  intros tr (top & [(path & ->)|(path & x & E & ->)]); [apply add_guarded|eapply root_find_guarded, E].
Qed.
(** proved: any number of lookups, in the tree and by regular expression *)
Theorem C75_find_partial : forall HS calls,
  Forall (fun tr => (exists (top : node HS) path, tr = find_trace top path) \/ exists method, tr = reg_find_trace method) calls ->
  race_free calls.
Proof.
  intros HS calls H. apply reading_race_free. eapply Forall_impl; [|exact H].
  intros tr [(top & path & ->)|(m & ->)]; [apply find_reading|]. intros l [X|[]]. discriminate.
Qed.

(** Missing: everything else, and it fails.  For every tree and every lookup of anything but
    the root there is a registration that races with it. *)
Lemma longer_path {HS} (cs : list (node HS)) : exists g, Forall (fun c => n_path c <> g) cs /\ g <> [] /\ no_slash g /\
  ~ starts_blank g /\ ~ ends_blank g.
Proof.
  set (k := fold_right (fun c k => length (n_path c) + k) 0 cs). exists (repeat "a"%char (S k)).
  assert (Ia : forall c, In c (repeat "a"%char (S k)) -> c = "a"%char) by (intros c Hc; eapply repeat_spec, Hc).
  assert (Nb : forall r, space_rune r -> (forall c, In c r -> c = "a"%char) -> False).
  { intros r Hr Hc. destruct Hr as [a Hs|a b Hs|a b c Hs]; rewrite ?(Hc a) in Hs by (cbn; auto); rewrite ?(Hc b) in Hs by (cbn; auto);
      rewrite ?(Hc c) in Hs by (cbn; auto); discriminate. }
  split; [|split; [|split; [|split]]].
  - apply Forall_forall. intros c Hc E. assert (length (n_path c) <= k).
    { subst k. clear E Ia Nb. induction cs as [|x cs IH]; [destruct Hc|]. cbn [fold_right]. destruct Hc as [->|Hc]; [lia|]. specialize (IH Hc). lia. }
    rewrite E, repeat_length in H. lia.
  - discriminate.
  - intros X. apply Ia in X. discriminate.
  - intros (r & t & Hr & E). apply (Nb r Hr). intros c Hc. apply Ia. rewrite E. apply in_or_app. auto.
  - intros (t & r & Hr & E). apply (Nb r Hr). intros c Hc. apply Ia. rewrite E. apply in_or_app. auto.
Qed.
Lemma find_child_none {HS} g (cs : list (node HS)) : Forall (fun c => n_path c <> g) cs -> forall i, find_child g cs i = [].
Proof.
  intros H. induction H as [|c cs N _ IH]; intros i; [reflexivity|]. cbn [find_child]. rewrite (proj2 (beq_neq _ _) N). apply IH.
Qed.
Theorem C75_lookups_race : forall HS (top : node HS) path p rest,
  n_urlid top = [] -> n_path top = B"/" -> split_path path = B"/" :: p :: rest ->
  exists route, ~ race_free [find_trace top path; add_trace top route].
Proof.
  intros HS top path p rest Hu Hp E.
  destruct (longer_path (n_children top)) as (g & G1 & G2 & G3 & G4 & G5). exists g.
  assert (Eg : split_path g = [B"/"; g]).
  { assert (X : split_path ([] ++ slashes 0 ++ join "/"%char [g] ++ slashes 0 ++ []) = B"/" :: [g]).
    { apply split_path_normal; [discriminate|constructor; [auto|constructor]|apply BlankNil|apply BlankNil|right; exact G4|exact G5]. }
    cbn in X. rewrite !app_nil_r in X. exact X. }
  assert (T1 : exists r, find_trace top path = Acc false (LNode [] FChildren) :: r).
  { unfold find_trace. rewrite E. cbn [find_loop_trace]. rewrite Hu, Hp. cbn [is_empty andb]. rewrite beq_refl. cbn [negb]. eauto. }
  assert (T2 : exists r, add_trace top g = Lock MWrite [] :: Acc false (LNode [] FChildren) :: Acc false (LNode [] FChildren) :: Acc true (LNode [] FChildren) :: r).
  { unfold add_trace. rewrite Eg. cbn [add_rec_trace]. unfold next_nodes. rewrite Hu. cbn [is_empty negb]. rewrite find_child_none by exact G1.
    cbn. eauto. }
  destruct T1 as (r1 & ->), T2 as (r2 & ->). intros F.
  apply (F [Th [] (Acc false (LNode [] FChildren) :: r1); Th [(MWrite, [])] (Acc true (LNode [] FChildren) :: r2)]).
  - cbn [map]. set (t1 := Th [] (Acc false (LNode [] FChildren) :: r1)).
    eapply runs_more; [|apply (T_acc [t1] [])].
    eapply runs_more; [|apply (T_acc [t1] [])].
    eapply runs_more; [|apply (T_lock [t1] [])]; [constructor|].
    intros th m' [<-|[<-|[]]] []. 
  - eexists 0, 1, _, _, _, _, _, _, _. split; [discriminate|]. split; [reflexivity|]. split; [reflexivity|]. right. reflexivity.
Qed.
Theorem C75_refuted : forall HS, ~ C75_claim HS.
Proof.
  intros HS H. destruct (C75_lookups_race HS new_tree (B"/a") (B"a") [] eq_refl eq_refl eq_refl) as (route & N).
  apply N, (H new_tree). repeat constructor.
Qed.
(** The lock Find takes around the handlers of the node it has found does not protect them:
    registering a route again races with looking it up. *)
Theorem C75_reregistration_races : forall HS (s : option HS),
  let top := tree_add new_tree MethodGet (B"/a") s in
  ~ race_free [find_trace top (B"/a"); add_trace top (B"/a")].
Proof.
  intros HS s top F.
  apply (F [Th [(MRead, [0])] [Acc false (LNode [0] FHandlers); Unlock MRead [0]];
            Th [(MWrite, [])] [Acc true (LNode [0] FHandlers); Unlock MWrite []]]).
  - cbn [map].
    assert (T1 : find_trace top (B"/a") = [Acc false (LNode [] FChildren); Lock MRead [0]; Acc false (LNode [0] FHandlers); Unlock MRead [0]]) by reflexivity.
    assert (T2 : add_trace top (B"/a") = [Lock MWrite []; Acc false (LNode [] FChildren); Acc false (LNode [0] FHandlers); Acc true (LNode [0] FHandlers); Unlock MWrite []]) by reflexivity.
    rewrite T1, T2. clear T1 T2.
    eapply runs_more; [|apply (T_acc [_] [])].
    eapply runs_more; [|apply (T_acc [_] [])].
    eapply runs_more; [|apply (T_lock [_] [])].
    + eapply runs_more; [|apply (T_lock [] [_])].
      * eapply runs_more; [|apply (T_acc [] [_])]. constructor.
      * intros th m' [<-|[<-|[]]] [].
    + intros th m' [<-|[<-|[]]] X; cbn in X; [destruct X as [X|[]]; discriminate|destruct X].
  - eexists 0, 1, _, _, _, _, _, _, _. split; [discriminate|]. split; [reflexivity|]. split; [reflexivity|]. right. reflexivity.
Qed.
(** Routes given by regular expression have no lock at all: two registrations for one method
    race, and so do a registration and a lookup. *)
Theorem C75_regexp_races : forall method, reg_add_trace method = [Acc true (LReg method)] ->
  ~ race_free [reg_add_trace method; reg_add_trace method] /\ ~ race_free [reg_add_trace method; reg_find_trace method].
Proof.
  intros m E. rewrite E. split; intros F; (eapply F; [constructor|]; eexists 0, 1, _, _, _, _, _, _, _; split; [discriminate|]; split; [reflexivity|]; split; [reflexivity|]; left; reflexivity).
Qed.
Example C75_regexp_nonvacuous : reg_add_trace MethodGet = [Acc true (LReg MethodGet)].
Proof. reflexivity. Qed.
Example C75_nonvacuous : split_path (B"/") = [B"/"] /\ split_path (B"/a/b") = [B"/"; B"a"; B"b"].
Proof. split; reflexivity. Qed.

(** ** The traces list every write of the model's Add *)
Lemma nth_fold_upd {A} (f : A -> A) idx : NoDup idx -> forall (l : list A) j,
  nth_error (fold_left (fun cs i => upd_nth i f cs) idx l) j =
  if existsb (Nat.eqb j) idx then option_map f (nth_error l j) else nth_error l j.
Proof.
  induction 1 as [|i idx Ni Nd IH]; intros l j; [reflexivity|]. cbn [fold_left existsb]. rewrite IH, nth_error_upd_nth.
  destruct (Nat.eqb_spec j i) as [->|_]; cbn [orb].
  - assert (existsb (Nat.eqb i) idx = false) as ->.
    { apply not_true_is_false. intros X. apply existsb_exists in X as (k & Hk & E). apply Nat.eqb_eq in E. subst k. exact (Ni Hk). }
    reflexivity.
  - destruct (existsb (Nat.eqb j) idx); reflexivity.
Qed.
Lemma fold_upd_length {A} (f : A -> A) idx : forall (l : list A), length (fold_left (fun cs i => upd_nth i f cs) idx l) = length l.
Proof. induction idx as [|i idx IH]; intros l; [reflexivity|]. cbn [fold_left]. rewrite IH. apply upd_nth_length. Qed.
Lemma find_child_nodup {HS} g (cs : list (node HS)) : forall i, NoDup (find_child g cs i).
Proof.
  induction cs as [|c cs IH]; intros i; cbn [find_child]; [constructor|]. destruct (beq (n_path c) g); [|apply IH].
  constructor; [intros []|constructor].
Qed.
Lemma next_nodup {HS} p u (cs : list (node HS)) : NoDup (next_nodes p u cs).
Proof. unfold next_nodes. destruct (negb (is_empty u)); [apply seq_NoDup|apply find_child_nodup]. Qed.
Definition covered {HS} (tr : list instr) (at_ : pos) (n n' : node HS) : Prop :=
  n_path n' = n_path n /\ n_urlid n' = n_urlid n /\
  (n_handlers n' = n_handlers n \/ In (Acc true (LNode at_ FHandlers)) tr) /\
  (length (n_children n') = length (n_children n) \/ In (Acc true (LNode at_ FChildren)) tr).
Lemma covered_refl {HS} tr at_ (n : node HS) : covered tr at_ n n.
Proof. unfold covered. auto. Qed.
Lemma covered_incl {HS} tr tr' at_ (n n' : node HS) : incl tr tr' -> covered tr at_ n n' -> covered tr' at_ n n'.
Proof. unfold covered. intros I (A & C & [D|D] & [E|E]); auto 10. Qed.
Lemma covered_child {HS} tr at_ (n : node HS) cs : length cs = length (n_children n) -> covered tr at_ n (set_children n cs).
Proof. intros E. unfold covered, set_children. cbn. auto. Qed.
Lemma add_rec_writes {HS} method (set : option HS) rest : forall (n : node HS) at_ p q m, node_at q n = Some m ->
  exists m', node_at q (add_rec n method p rest set) = Some m' /\ covered (add_rec_trace n at_ p rest) (at_ ++ q) m m'.
Proof.
  induction rest as [|p2 rest IH]; intros n at_ p q m Hq.
  - cbn [add_rec add_rec_trace]. pose proof (next_nodup p (n_urlid n) (n_children n)) as Nd.
    destruct (next_nodes p (n_urlid n) (n_children n)) as [|i0 next] eqn:En.
    + destruct q as [|i q]; cbn [node_at] in *.
      * injection Hq as <-. eexists. split; [reflexivity|]. rewrite app_nil_r. unfold covered, set_children; cbn. auto 10.
      * destruct (nth_error (n_children n) i) as [c|] eqn:Ec; [|discriminate]. exists m. split; [|apply covered_refl].
        unfold set_children. cbn [n_children]. rewrite nth_error_app1 by (apply nth_error_Some; congruence). rewrite Ec. exact Hq.
    + destruct q as [|i q]; cbn [node_at] in *.
      * injection Hq as <-. eexists. split; [reflexivity|]. apply covered_child, fold_upd_length.
      * destruct (nth_error (n_children n) i) as [c|] eqn:Ec; [|discriminate]. unfold set_children. cbn [n_children].
        rewrite nth_fold_upd by exact Nd. rewrite Ec. cbn [option_map]. destruct (existsb (Nat.eqb i) (i0 :: next)) eqn:Ex.
        -- apply existsb_exists in Ex as (k & Hk & E). apply Nat.eqb_eq in E. subst k. destruct q as [|j q]; cbn [node_at] in *.
           ++ injection Hq as <-. eexists. split; [reflexivity|]. unfold covered, set_handlers; cbn [n_path n_urlid n_handlers n_children].
              split; [reflexivity|]. split; [reflexivity|]. split; [right|left; reflexivity].
              right. apply in_flat_map. exists i. split; [exact Hk|right; left; reflexivity].
           ++ exists m. split; [exact Hq|apply covered_refl].
        -- exists m. split; [exact Hq|apply covered_refl].
  - cbn [add_rec add_rec_trace]. pose proof (next_nodup p (n_urlid n) (n_children n)) as Nd.
    destruct (next_nodes p (n_urlid n) (n_children n)) as [|i0 next] eqn:En.
    + destruct q as [|i q]; cbn [node_at] in *.
      * injection Hq as <-. eexists. split; [reflexivity|]. rewrite app_nil_r. unfold covered, set_children; cbn. auto 10.
      * destruct (nth_error (n_children n) i) as [c|] eqn:Ec; [|discriminate]. exists m. split; [|apply covered_refl].
        unfold set_children. cbn [n_children]. rewrite nth_error_app1 by (apply nth_error_Some; congruence). rewrite Ec. exact Hq.
    + destruct q as [|i q]; cbn [node_at] in *.
      * injection Hq as <-. eexists. split; [reflexivity|]. apply covered_child, fold_upd_length.
      * destruct (nth_error (n_children n) i) as [c|] eqn:Ec; [|discriminate]. unfold set_children. cbn [n_children].
        rewrite (nth_fold_upd (fun c => add_rec c method p2 rest set)) by exact Nd. rewrite Ec. cbn [option_map].
        destruct (existsb (Nat.eqb i) (i0 :: next)) eqn:Ex.
        -- apply existsb_exists in Ex as (k & Hk & E). apply Nat.eqb_eq in E. subst k.
           destruct (IH c (at_ ++ [i]) p2 q m Hq) as (m' & H1 & H2). exists m'. split; [exact H1|].
           rewrite <- app_assoc in H2. eapply covered_incl; [|exact H2]. intros x Hx. right. apply in_flat_map. exists i. split; [exact Hk|].
           rewrite Ec. exact Hx.
        -- exists m. split; [exact Hq|apply covered_refl].
Qed.
(** What Add changes of the nodes that were there, it changes at locations its trace lists as written. *)
Theorem C75_writes_listed : forall HS (top : node HS) method path set p n, node_at p top = Some n ->
  exists n', node_at p (tree_add top method path set) = Some n' /\
    n_path n' = n_path n /\ n_urlid n' = n_urlid n /\
    (n_handlers n' <> n_handlers n -> In (Acc true (LNode p FHandlers)) (add_trace top path)) /\
    (length (n_children n') <> length (n_children n) -> In (Acc true (LNode p FChildren)) (add_trace top path)).
Proof.
  intros HS top method path set p n H. unfold tree_add, add_trace.
  assert (K : forall tr n', covered tr p n n' -> n_path n' = n_path n /\ n_urlid n' = n_urlid n /\
    (n_handlers n' <> n_handlers n -> In (Acc true (LNode p FHandlers)) ([Lock MWrite []] ++ tr ++ [Unlock MWrite []])) /\
    (length (n_children n') <> length (n_children n) -> In (Acc true (LNode p FChildren)) ([Lock MWrite []] ++ tr ++ [Unlock MWrite []]))).
  { intros tr n' (A & C & D & E). split; [exact A|]. split; [exact C|].
    split; intros X.
    - destruct D as [D|D]; [contradiction|]. apply in_or_app. right. apply in_or_app. left. exact D.
    - destruct E as [E|E]; [contradiction|]. apply in_or_app. right. apply in_or_app. left. exact E. }
  assert (R : exists n', node_at p (set_handlers top (add_method method (n_handlers top) set)) = Some n' /\ covered (touch_handlers []) p n n').
  { destruct p as [|i p]; cbn [node_at] in *.
    - injection H as <-. eexists. split; [reflexivity|]. unfold covered; cbn. auto 10.
    - exists n. split; [exact H|apply covered_refl]. }
  destruct (split_path path) as [|x [|q rest]].
  - destruct R as (n' & R1 & R2). exists n'. split; [exact R1|apply K, R2].
  - destruct R as (n' & R1 & R2). exists n'. split; [exact R1|apply K, R2].
  - destruct (add_rec_writes method set rest top [] q p n H) as (n' & R1 & R2). exists n'. split; [exact R1|apply K, R2].
Qed.
Example C75_writes_nonvacuous :
  let top := tree_add new_tree MethodGet (B"/a") (Some 1) in
  exists n n', node_at [0] top = Some n /\ node_at [0] (tree_add top MethodGet (B"/a") (Some 2)) = Some n' /\ n_handlers n' <> n_handlers n.
Proof. eexists _, _. split; [reflexivity|]. split; [reflexivity|]. discriminate. Qed.
(** The same for routes given by regular expression. *)
Lemma reg_put_writes {HS} (rt rt' : rtree HS) m re set m' : reg_put rt m re set = Ok rt' -> aget m' rt' <> aget m' rt -> m' = m.
Proof.
  unfold reg_put. destruct (aget m rt); [|discriminate]. intros E N. injection E as <-.
  destruct (beq_spec m' m) as [->|X]; [reflexivity|]. rewrite aget_aput_other in N by exact X. congruence.
Qed.
Theorem C75_regexp_writes_listed : forall HS (rt rt' : rtree HS) method re set m,
  reg_add rt method re set = Ok rt' -> aget m rt' <> aget m rt -> In (Acc true (LReg m)) (reg_add_trace method).
Proof.
  intros HS rt rt' method re set m. unfold reg_add, reg_add_trace, rbind.
  assert (T : forall m1 m2, match reg_put rt m1 re set with Ok a => reg_put a m2 re set | Panic => Panic end = Ok rt' ->
    aget m rt' <> aget m rt -> m = m1 \/ m = m2).
  { intros m1 m2. destruct (reg_put rt m1 re set) as [rt1|] eqn:E1; [|discriminate]. intros E2 N.
    destruct (beq_spec m m1) as [->|X]; [left; reflexivity|right]. eapply reg_put_writes; [exact E2|].
    intros Y. apply N. rewrite Y.
    unfold reg_put in E1. destruct (aget m1 rt); [|discriminate]. injection E1 as <-. apply aget_aput_other. exact X. }
  destruct (beq method MethodGetPost).
  { intros E N. destruct (T _ _ E N) as [->| ->]; cbn [In]; auto. }
  destruct (beq method MethodGetHead).
  { intros E N. destruct (T _ _ E N) as [->| ->]; cbn [In]; auto. }
  intros E N. rewrite (reg_put_writes _ _ _ _ _ _ E N). left. reflexivity.
Qed.
Example C75_regexp_writes_nonvacuous : exists rt' : rtree nat, reg_add new_reg_tree MethodGetPost 0 7 = Ok rt' /\ aget MethodPost rt' <> aget MethodPost new_reg_tree /\ aget MethodHead rt' = aget MethodHead new_reg_tree.
Proof. eexists. split; [reflexivity|]. split; [discriminate|reflexivity]. Qed.

Print Assumptions C75_regexp_writes_listed.
Print Assumptions C75_add_partial.
Print Assumptions C75_find_partial.
Print Assumptions C75_lookups_race.
Print Assumptions C75_refuted.
Print Assumptions C75_reregistration_races.
Print Assumptions C75_regexp_races.
Print Assumptions C75_writes_listed.
