(** Properties C18-C28: the request pipeline. *)
From Verif Require Import Base GoErrors M_Pipeline S_Pipeline P_Pipeline.

(** ** A concrete handler set used by the non-vacuity examples: each handler
    does what the tables say, whatever context it sees. *)
Definition hb (n : bytes) (acts : list action) (o : outcome) : handler := Handler n (fun _ => (acts, o)).
Definition ok := HRet None.
Definition boom := EUser 7 (B"boom").
Definition ex_set (init b1 main a1 : list action * outcome) : hset :=
  HSet [hb (B"b0") [] ok; hb (B"b1") (fst b1) (snd b1)] [hb (B"a0") [] ok; hb (B"a1") (fst a1) (snd a1)]
       (Some (Last (B"last") (fun _ e => ([], HRet e))))
       (Some (Main (B"main") (fun _ => init) (fun _ => main))).
Definition nop : list action * outcome := ([], ok).

(** ** C18 *)
Theorem C18_pipeline_order : forall s c ks c' r,
  run_set s c = (ks, c', r) ->
  (exists with_main rest, pipeline s with_main = whos ks ++ rest) /\
  NoDup (whos ks) /\
  Forall (genuine s) ks.
Proof.
  intros s c ks c' r H. split; [|split].
  - destruct (hs_main s) as [m|] eqn:Hm.
    + apply (run_set_prefix s c ks c' r); [congruence|exact H].
    + unfold run_set in H. rewrite Hm in H. injection H as <- <- <-. exists true. simpl. eauto.
  - destruct (hs_main s) as [m|] eqn:Hm.
    + destruct (run_set_prefix s c ks c' r) as (b & rest & E); [congruence|exact H|].
      pose proof (NoDup_pipeline s b) as N. rewrite E in N. exact (NoDup_app_l _ _ N).
    + unfold run_set in H. rewrite Hm in H. injection H as <- <- <-. constructor.
  - exact (run_set_genuine s c ks c' r H).
Qed.
Example C18_ex : whos (fst (fst (run_set (ex_set nop nop nop nop) new_ctx)))
  = [WInit; WBefore 0; WBefore 1; WMain; WAfter 0; WAfter 1].
Proof. reflexivity. Qed.

(** ** C19.  [c] is the context the pipeline starts with. *)
Lemma runs_end_stopped c ks c' : runs c ks c' -> stopped c = false ->
  (forall k, In k ks -> ~ asks_stop k) -> stopped c' = false.
Proof.
  intros R H0 Hn. rewrite (runs_stopped _ _ _ R), H0. simpl. apply existsb_false_iff.
  intros k Hk. destruct (existsb is_stop (k_acts k)) eqn:E; [|reflexivity].
  apply is_stop_asks in E. exfalso. exact (Hn k Hk E).
Qed.

Theorem C19_full_pipeline : forall s c ks c' r,
  hs_main s <> None -> stopped c = false -> run_set s c = (ks, c', r) ->
  (forall k, In k ks -> ~ asks_stop k) ->
  ((forall k, In k ks -> returns_nil k) <-> r = RRet None) /\
  (r = RRet None ->
   exists with_main, whos ks = pipeline s with_main /\
     (with_main = true <->
      c_skip c = false /\ forall k, In k ks -> early (k_who k) -> ~ asks ASkipMain k)).
Proof.
  intros s c ks c' r Hm H0 H Hn. destruct (hs_main s) as [m|] eqn:Em; [|contradiction].
  pose proof (run_set_shape s m c ks c' r Em H) as Sh.
  pose proof (run_set_runs s c ks c' r H) as R.
  pose proof (runs_end_stopped c ks c' R H0 Hn) as Hst.
  split; [split|].
  - intros Hr. destruct Sh as [k0 kb km ka Es Hi _ _ _ _ _ _ _ Hend].
    assert (Hr' : forall k, In k ks -> k_out k = HRet None) by exact Hr.
    destruct Hend as [[E1 He]|[_ [(ks0 & k & E2 & _ & He)|(_ & X & _)]]]; [| |exact X].
    + specialize (Hr' k0). rewrite Es in Hr'. specialize (Hr' (or_introl eq_refl)).
      destruct He as [[X _]|(e & X & _)]; congruence.
    + specialize (Hr' k). rewrite Es, E2 in Hr'.
      assert (I : In k (k0 :: ks0 ++ [k])) by (right; apply in_app_iff; right; left; reflexivity).
      specialize (Hr' I). destruct He as [[X _]|[(e & X & _)|(_ & _ & X)]]; congruence.
  - intros -> k Hk. unfold returns_nil. apply in_split in Hk as (l1 & l2 & E).
    destruct (k_out k) as [[e|]|] eqn:Ek; [|reflexivity|]; exfalso.
    + destruct (ends_unique s m c ks c' _ l1 k l2 Sh E) as [_ He]; [right; congruence|].
      destruct He as [[X _]|[(e' & X & Y)|(X & _)]]; congruence.
    + destruct (ends_unique s m c ks c' _ l1 k l2 Sh E) as [_ He]; [right; congruence|].
      destruct He as [[X Y]|[(e' & X & Y)|(X & _)]]; congruence.
  - intros ->. exact (shape_full s m c ks c' Sh Hst).
Qed.
Example C19_ex : let '(ks, _, r) := run_set (ex_set nop ([ASkipMain], ok) nop nop) new_ctx in
  whos ks = pipeline (ex_set nop nop nop nop) false /\ r = RRet None /\
  forallb (fun k => negb (existsb is_stop (k_acts k))) ks = true.
Proof. repeat split. Qed.

(** ** C20 *)
Theorem C20_first_error : forall s c ks c' r,
  run_set s c = (ks, c', r) ->
  (forall ks1 k ks2 e, ks = ks1 ++ k :: ks2 -> k_out k = HRet (Some e) ->
     ks2 = [] /\ r = RRet (Some e)) /\
  (forall e, r = RRet (Some e) -> exists ks1 k, ks = ks1 ++ [k] /\ k_out k = HRet (Some e)).
Proof.
  intros s c ks c' r H. destruct (hs_main s) as [m|] eqn:Em.
  2:{ unfold run_set in H. rewrite Em in H. injection H as <- <- <-. split.
      - intros [|] ? ? ? E; discriminate.
      - discriminate. }
  pose proof (run_set_shape s m c ks c' r Em H) as Sh. split.
  - intros ks1 k ks2 e E Ek.
    destruct (ends_unique s m c ks c' r ks1 k ks2 Sh E) as [-> He]; [right; congruence|].
    split; [reflexivity|]. destruct He as [[X _]|[(e' & X & ->)|(X & _)]]; congruence.
  - intros e ->. destruct Sh as [k0 kb km ka Es _ _ _ _ _ _ _ _ Hend].
    destruct Hend as [[E1 [[_ X]|(e' & X & Y)]]|[_ [(ks0 & k & E2 & _ & He)|(_ & X & _)]]];
      try discriminate.
    + exists [], k0. rewrite Es, E1. split; [reflexivity|congruence].
    + exists (k0 :: ks0), k. rewrite Es, E2. split; [reflexivity|].
      destruct He as [[_ X]|[(e' & X & Y)|(_ & _ & X)]]; congruence.
Qed.
Example C20_ex : let '(ks, _, r) :=
    run_set (ex_set nop ([], HRet (Some boom)) nop nop) new_ctx in
  whos ks = [WInit; WBefore 0; WBefore 1] /\ r = RRet (Some boom).
Proof. repeat split. Qed.

(** ** C21 *)
Theorem C21_stop_is_last : forall s c ks c' r ks1 k ks2,
  run_set s c = (ks, c', r) -> ks = ks1 ++ k :: ks2 ->
  k_who k <> WInit -> asks_stop k -> returns_nil k ->
  ks2 = [] /\ r = RRet None.
Proof.
  intros s c ks c' r ks1 k ks2 H E Hw Ha Hr. destruct (hs_main s) as [m|] eqn:Em.
  2:{ unfold run_set in H. rewrite Em in H. injection H as <- <- <-.
      destruct ks1; discriminate. }
  pose proof (run_set_shape s m c ks c' r Em H) as Sh.
  pose proof (run_set_runs s c ks c' r H) as R. rewrite E in R.
  destruct (runs_split _ _ _ _ _ R) as (c1 & _ & Hs & _).
  assert (St : stopped (k_post k) = true).
  { rewrite (post_stopped c1 k Hs). apply is_stop_asks in Ha. rewrite Ha. apply orb_true_r. }
  destruct (ends_unique s m c ks c' r ks1 k ks2 Sh E) as [-> He].
  - left. split; [exact Hw|]. intros [_ Q]. congruence.
  - split; [reflexivity|]. unfold returns_nil in Hr.
    destruct He as [[X _]|[(e' & X & _)|(_ & _ & X)]]; congruence.
Qed.
Example C21_ex : let '(ks, _, r) := run_set (ex_set nop nop ([AStop], ok) nop) new_ctx in
  whos ks = [WInit; WBefore 0; WBefore 1; WMain] /\ r = RRet None.
Proof. repeat split. Qed.

(** ** C22: false of the code — Run does not test Stopped after Init *)
Definition C22_claim : Prop := forall s c ks c' r k0 ks',
  run_set s c = (ks, c', r) -> ks = k0 :: ks' -> k_who k0 = WInit -> asks_stop k0 -> ks' = [].
Theorem C22_stop_in_init_refuted : ~ C22_claim.
Proof.
  intros H. pose (s := ex_set ([AStop], ok) nop nop nop).
  destruct (run_set s new_ctx) as [[ks c'] r] eqn:E.
  pose proof E as E'. cbv in E'. destruct ks as [|k0 ks']; [discriminate|].
  injection E' as E1 E2 E3 E4.
  specialize (H s new_ctx (k0 :: ks') c' r k0 ks' E eq_refl).
  rewrite <- E1, <- E2 in H. specialize (H eq_refl). 
  assert (A : asks_stop (Call WInit (B"main") (add_debug new_ctx (B"main")) [AStop] ok)) by (left; left; reflexivity).
  specialize (H A). discriminate.
Qed.
(** What holds: exactly one more handler can run after it.  Missing from the full
    property: that none does. *)
Theorem C22_stop_in_init_partial : forall s c ks c' r k0 ks',
  run_set s c = (ks, c', r) -> ks = k0 :: ks' -> k_who k0 = WInit -> asks_stop k0 ->
  length ks' <= 1.
Proof.
  intros s c ks c' r k0 ks' H E Hw Ha. destruct (hs_main s) as [m|] eqn:Em.
  2:{ unfold run_set in H. rewrite Em in H. injection H as <- <- <-. discriminate. }
  pose proof (run_set_shape s m c ks c' r Em H) as Sh.
  pose proof (run_set_runs s c ks c' r H) as R. rewrite E in R.
  inversion R as [|? ? ? ? Hs R1]; subst.
  assert (St : stopped (k_post k0) = true).
  { rewrite (post_stopped c k0 Hs). apply is_stop_asks in Ha. rewrite Ha. apply orb_true_r. }
  destruct ks' as [|k1 ks2]; [simpl; lia|].
  assert (St1 : stopped (k_post k1) = true).
  { inversion R1 as [|? ? ? ? Hs1 _]; subst. rewrite (post_stopped _ k1 Hs1), St. reflexivity. }
  destruct (ends_unique s m c (k0 :: k1 :: ks2) c' r [k0] k1 ks2 Sh eq_refl) as [-> _]; [|simpl; lia].
  left. split; [|intros [_ Q]; congruence].
  intros X. destruct (C18_pipeline_order s c _ _ _ H) as (_ & N & _).
  unfold whos in N. cbn [map] in N. rewrite X, Hw in N. inversion N as [|? ? N1 _]; subst.
  apply N1. left. reflexivity.
Qed.
(** Exactly: the next handler in line runs, and no other; after an error, none. *)
Theorem C22_exactly_one_more : forall s c k0 ks' c' r,
  run_set s c = (k0 :: ks', c', r) -> asks_stop k0 ->
  (~ returns_nil k0 -> ks' = []) /\
  (returns_nil k0 -> exists with_main,
     (with_main = false <-> c_skip c = true \/ asks ASkipMain k0) /\ whos ks' = firstn 1 (tl (pipeline s with_main))).
Proof.
  intros s c k0 ks' c' r H Ha. unfold run_set in H. destruct (hs_main s) as [m|] eqn:Em; [|discriminate].
  unfold run1 at 1 in H. set (c1 := add_debug c (m_name m)) in *. destruct (m_init m c1) as [acts out] eqn:Ei.
  assert (K0 : k0 = Call WInit (m_name m) c1 acts out).
  { destruct (after_call _ _ _) eqn:Ac in H; [|congruence]. destruct (run_list WBefore _ _ _) as [[kb cb] [|rb]]; [|congruence].
    destruct (c_skip cb); [|unfold run1 in H; destruct (m_run m _) as [am om]; destruct (after_call true _ _)];
      try (destruct (run_list WAfter _ _ _) as [[ka ca] [|ra]]); congruence. }
  assert (Stop : forall k l, stopped (apply (add_debug (apply c1 acts) k) l) = true).
  { intros k l. rewrite apply_stopped. destruct (add_debug_flags (apply c1 acts) k) as (-> & _). rewrite apply_stopped.
    subst k0. apply is_stop_asks in Ha. cbn [k_acts] in Ha. rewrite Ha, orb_true_r. reflexivity. }
  assert (Skip : c_skip (apply c1 acts) = true <-> c_skip c = true \/ asks ASkipMain k0).
  { rewrite apply_skip. unfold c1. assert (E : c_skip (add_debug c (m_name m)) = c_skip c) by (unfold add_debug; destruct (_ <=? _)%Z; reflexivity).
    rewrite E, orb_true_iff, existsb_exists. subst k0. unfold asks. cbn [k_acts]. split; intros [X|X]; auto; right.
    - destruct X as (a & I & Ea). destruct a; try discriminate. exact I.
    - exists ASkipMain. auto. }
  assert (One : forall mkw h hs, exists k, k_who k = mkw 0 /\ run_list mkw 0 (h :: hs) (apply c1 acts) = ([k], snd (run1 (mkw 0) (h_name h) (h_run h) (apply c1 acts)), after_call true k (snd (run1 (mkw 0) (h_name h) (h_run h) (apply c1 acts)))) /\
     exists rr, after_call true k (snd (run1 (mkw 0) (h_name h) (h_run h) (apply c1 acts))) = Finish rr).
  { intros mkw h hs. cbn [run_list]. unfold run1. destruct (h_run h _) as [a o]. cbn [snd]. exists (Call (mkw 0) (h_name h) (add_debug (apply c1 acts) (h_name h)) a o). split; [|split].
    2:{ unfold after_call. cbn [k_out]. rewrite Stop. cbn [andb]. destruct o as [[e|]|]; reflexivity. }
    - reflexivity.
    - unfold after_call. cbn [k_out]. rewrite Stop. cbn [andb]. destruct o as [[e|]|]; eexists; reflexivity. }
  unfold after_call at 1 in H. cbn [k_out] in H. split.
  - intros N. subst k0. unfold returns_nil in N. cbn [k_out] in N. destruct out as [[e|]|]; [| |]; try congruence.
  - intros N. subst k0. unfold returns_nil in N. cbn [k_out] in N. subst out. cbn [andb] in H.
    exists (negb (c_skip (apply c1 acts))). split; [rewrite negb_false_iff; exact Skip|].
    unfold pipeline. cbn [app tl]. destruct (hs_before s) as [|hb hbs].
    + cbn [run_list length seq map app] in H |- *. destruct (c_skip (apply c1 acts)); cbn [negb app].
      * destruct (hs_after s) as [|ha has].
        -- cbn [run_list] in H. injection H as <- <- <-. reflexivity.
        -- destruct (One WAfter ha has) as (k & W & E & rr & F). rewrite E, F in H. injection H as <- <- <-. cbn. rewrite W. reflexivity.
      * unfold run1 in H. destruct (m_run m _) as [a o]. unfold after_call in H. cbn [k_out] in H. rewrite Stop in H. cbn [andb] in H.
        destruct o as [[e|]|]; injection H as <- <- <-; reflexivity.
    + destruct (One WBefore hb hbs) as (k & W & E & rr & F). rewrite E, F in H. injection H as <- <- <-.
      cbn. rewrite W. reflexivity.
Qed.
Example C22_ex : let '(ks, _, r) := run_set (ex_set ([AStop], ok) nop nop nop) new_ctx in
  whos ks = [WInit; WBefore 0].
Proof. reflexivity. Qed.

(** ** C23 *)
Theorem C23_skip_main : forall s c ks c' r,
  run_set s c = (ks, c', r) ->
  (* asked for in time: main does not run *)
  ((exists k, In k ks /\ early (k_who k) /\ asks ASkipMain k) -> ~ In WMain (whos ks)) /\
  (* ... and everything else does, if nothing stops the pipeline *)
  (hs_main s <> None -> stopped c = false -> r = RRet None -> (forall k, In k ks -> ~ asks_stop k) ->
   (exists k, In k ks /\ early (k_who k) /\ asks ASkipMain k) -> whos ks = pipeline s false) /\
  (* asked for too late (or never): no effect *)
  (hs_main s <> None -> stopped c = false -> c_skip c = false ->
   r = RRet None -> (forall k, In k ks -> ~ asks_stop k) ->
   (forall k, In k ks -> early (k_who k) -> ~ asks ASkipMain k) -> whos ks = pipeline s true).
Proof.
  intros s c ks c' r H. split; [|split].
  - intros (k & Hk & He & Ha) HM. destruct (hs_main s) as [m|] eqn:Em.
    2:{ unfold run_set in H. rewrite Em in H. injection H as <- <- <-. destruct Hk. }
    destruct (run_set_shape s m c ks c' r Em H)
      as [k0 kb km ka Es Hi R (nb & Hnb & Wb & _ & _) Hkm (na & Hna & Wa & _) _ Hmc _ _].
    assert (Km : km <> []).
    { intros ->. rewrite Es in HM. unfold whos in HM, Wb, Wa. cbn [map] in HM.
      rewrite !map_app, Wb, Wa, Hi in HM. cbn [map app] in HM.
      destruct HM as [X|HM]; [discriminate|]. apply in_app_iff in HM as [HM|HM];
        apply in_map_iff in HM as (i & X & _); discriminate. }
    specialize (Hmc Km). apply orb_false_iff in Hmc as [_ Hs]. rewrite skips_false in Hs.
    rewrite Es in Hk. destruct Hk as [<-|Hk]; [exact (Hs k0 (or_introl eq_refl) Ha)|].
    apply in_app_iff in Hk as [Hk|Hk]; [exact (Hs k (or_intror Hk) Ha)|].
    apply in_app_iff in Hk as [Hk|Hk].
    + destruct Hkm as [X|(k' & -> & W & _)]; [contradiction|].
      destruct Hk as [<-|[]]. destruct He as [X|[i X]]; congruence.
    + pose proof (whos_in k ka Hk) as Hw. rewrite Wa in Hw.
      apply in_map_iff in Hw as (i & X & _). rewrite <- X in He. destruct He as [Y|[j Y]]; discriminate.
  - intros Hm H0 Hr Hn (k & Hk & He & Ha).
    destruct (C19_full_pipeline s c ks c' r Hm H0 H Hn) as [_ F].
    destruct (F Hr) as (b & -> & Hb). destruct b; [|reflexivity].
    destruct (proj1 Hb eq_refl) as [_ X]. exfalso. exact (X k Hk He Ha).
  - intros Hm H0 Hs Hr Hn Hns.
    destruct (C19_full_pipeline s c ks c' r Hm H0 H Hn) as [_ F].
    destruct (F Hr) as (b & -> & Hb). rewrite (proj2 Hb (conj Hs Hns)). reflexivity.
Qed.
Example C23_ex : whos (fst (fst (run_set (ex_set nop nop ([ASkipMain], ok) nop) new_ctx)))
  = pipeline (ex_set nop nop nop nop) true.
Proof. reflexivity. Qed.

(** ** Requests *)
Lemma first_error_none l : first_error l = None <-> forall x, In x l -> x = None.
Proof.
  induction l as [|[e|] l IH]; simpl.
  - split; [intros _ x []|reflexivity].
  - split; [discriminate|]. intros H. specialize (H (Some e) (or_introl eq_refl)). discriminate.
  - rewrite IH. split; [intros H x [<-|Hx]; auto|intros H x Hx; auto].
Qed.
Lemma first_error_in l e : first_error l = Some e -> In (Some e) l.
Proof.
  induction l as [|[x|] l IH]; simpl; [discriminate|intros H; injection H as ->; auto|auto].
Qed.

(** the shape of a request: initialiser, pipeline, wait, last *)
Lemma run_http_shape s ses path lvl sched :
  let x := run_http (Some s) ses path lvl sched in
  (exists k, x_calls x = [k] /\ k_who k = WSesInit /\ k_out k <> HRet None /\
     x_ctx x = left_by k /\
     x_result x = match k_out k with
                  | HRet (Some e) => RRet (new_err (B"path '" ++ path ++ B"': " ++ err_text e))
                  | _ => RPanic end)
  \/
  exists ki c0 ks c2 r,
    whos ki = (if ses then [WSesInit] else []) /\
    (ki = [] /\ c0 = new_ctx \/ exists k, ki = [k] /\ k_who k = WSesInit /\ k_out k = HRet None
        /\ c0 = left_by k /\ k_seen k = new_ctx) /\
    run_set s (apply1 c0 (ASetLevel lvl)) = (ks, c2, r) /\
    match r with
    | RPanic => x_calls x = ki ++ ks /\ x_result x = RPanic /\ x_ctx x = c2
    | RRet e =>
        if c_aborted c2 then x_calls x = ki ++ ks /\ x_result x = RRet e /\ x_ctx x = c2
        else
          let eg := first_error (sched (c_tasks c2)) in
          exists kw, k_who kw = WWait /\ k_acts kw = [] /\ k_out kw = HRet eg /\
          let c3 := Ctx (c_stopped c2) (c_aborted c2) (c_skip c2) true (c_level c2) (c_log c2) (c_tasks c2) in
          match hs_last s with
          | None => x_calls x = ki ++ ks ++ [kw] /\ x_result x = RRet (combine_err e eg) /\ x_ctx x = c3
          | Some l => exists kl, x_calls x = ki ++ ks ++ [kw; kl] /\ k_who kl = WLast (combine_err e eg)
              /\ k_name kl = l_name l /\ k_seen kl = c3 /\
              l_run l c3 (combine_err e eg) = (k_acts kl, k_out kl) /\
              x_result x = match k_out kl with HRet e' => RRet e' | HPanic => RPanic end
              /\ x_ctx x = left_by kl
          end
    end.
Proof.
  cbv zeta. unfold run_http.
  assert (Core : forall ki c0,
    (ki = [] /\ c0 = new_ctx \/ exists k, ki = [k] /\ k_who k = WSesInit /\ k_out k = HRet None
        /\ c0 = left_by k /\ k_seen k = new_ctx) ->
    forall x, x = (let c1 := Ctx (c_stopped c0) (c_aborted c0) (c_skip c0) (c_cancelled c0) lvl
                        (c_log c0) (c_tasks c0) in
          match run_set s c1 with
          | (ks, c2, RPanic) => Http (ki ++ ks) None RPanic c2
          | (ks, c2, RRet e) =>
              if c_aborted c2 then Http (ki ++ ks) None (RRet e) c2 
              else
                let '(eg, c3) := eg_wait sched c2 in
                let kw := Call WWait [] c2 [] (HRet eg) in
                let '(kl, c4, r) := run_last s c3 (combine_err e eg) in
                Http (ki ++ ks ++ [kw] ++ kl) None r c4
          end) ->
    exists ks c2 r,
    run_set s (apply1 c0 (ASetLevel lvl)) = (ks, c2, r) /\
    match r with
    | RPanic => x_calls x = ki ++ ks /\ x_result x = RPanic /\ x_ctx x = c2
    | RRet e =>
        if c_aborted c2 then x_calls x = ki ++ ks /\ x_result x = RRet e /\ x_ctx x = c2
        else
          let eg := first_error (sched (c_tasks c2)) in
          exists kw, k_who kw = WWait /\ k_acts kw = [] /\ k_out kw = HRet eg /\
          let c3 := Ctx (c_stopped c2) (c_aborted c2) (c_skip c2) true (c_level c2) (c_log c2) (c_tasks c2) in
          match hs_last s with
          | None => x_calls x = ki ++ ks ++ [kw] /\ x_result x = RRet (combine_err e eg) /\ x_ctx x = c3
          | Some l => exists kl, x_calls x = ki ++ ks ++ [kw; kl] /\ k_who kl = WLast (combine_err e eg)
              /\ k_name kl = l_name l /\ k_seen kl = c3 /\
              l_run l c3 (combine_err e eg) = (k_acts kl, k_out kl) /\
              x_result x = match k_out kl with HRet e' => RRet e' | HPanic => RPanic end
              /\ x_ctx x = left_by kl
          end
    end).
  { intros ki c0 _ x Hx. cbv zeta in Hx. cbn [apply1].
    destruct (run_set s _) as [[ks c2] r]. exists ks, c2, r. split; [reflexivity|].
    destruct r as [e|]; [|rewrite Hx; auto].
    destruct (c_aborted c2) eqn:Eab; [rewrite Hx; auto|]. unfold eg_wait in Hx. rewrite Eab in Hx.
    cbv zeta. eexists (Call WWait [] c2 [] (HRet _)).
    repeat (split; [reflexivity|]). unfold run_last in Hx.
    destruct (hs_last s) as [l|].
    2:{ rewrite Hx. repeat split. }
    set (c3 := Ctx _ _ _ true _ _ _) in *.
    destruct (l_run l c3 _) as [acts out] eqn:El.
    eexists (Call _ (l_name l) c3 acts out). rewrite Hx. simpl.
    repeat split. }
  destruct ses as [f|].
  - destruct (f new_ctx) as [acts out] eqn:Ef. set (k := Call WSesInit [] new_ctx acts out).
    destruct out as [[e|]|].
    + left. exists k. repeat split; discriminate.
    + right. exists [k], (left_by k).
      destruct (Core [k] (left_by k)) with (x := run_http (Some s) (Some f) path lvl sched)
        as (ks & c2 & r & H); [right; exists k; repeat split| |].
      { unfold run_http. rewrite Ef. reflexivity. }
      exists ks, c2, r. unfold run_http in H. rewrite Ef in H. split; [reflexivity|].
      split; [|exact H].
      right. exists k. repeat split.
    + left. exists k. repeat split; discriminate.
  - right. exists [], new_ctx.
    destruct (Core [] new_ctx) with (x := run_http (Some s) None path lvl sched)
      as (ks & c2 & r & H); [left; auto|reflexivity|].
    exists ks, c2, r. split; [reflexivity|]. split; [left; auto|exact H].
Qed.

(** pipeline calls are never labelled as the surrounding ones *)
Lemma pipeline_label s c ks c' r k : run_set s c = (ks, c', r) -> In k ks ->
  k_who k <> WSesInit /\ k_who k <> WWait /\ forall e, k_who k <> WLast e.
Proof.
  intros H Hk. pose proof (run_set_genuine s c ks c' r H) as G.
  rewrite Forall_forall in G. specialize (G k Hk). unfold genuine in G.
  destruct (k_who k); repeat split; try discriminate; contradiction.
Qed.

Lemma level_keeps c l :
  stopped (apply1 c (ASetLevel l)) = stopped c /\ c_aborted (apply1 c (ASetLevel l)) = c_aborted c /\
  c_cancelled (apply1 c (ASetLevel l)) = c_cancelled c /\ c_tasks (apply1 c (ASetLevel l)) = c_tasks c.
Proof. repeat split. Qed.

Lemma left_by_tasks k : c_tasks (left_by k) = c_tasks (k_seen k) ++ started k.
Proof.
  unfold left_by, started, apply. generalize (k_seen k). induction (k_acts k) as [|a acts IH];
    intros c; simpl; [rewrite app_nil_r; reflexivity|].
  rewrite IH. destruct a; simpl; try reflexivity. rewrite <- app_assoc. reflexivity.
Qed.

(** a request runs its initialiser successfully, does not abort and does not panic *)
Definition undisturbed (x : http) : Prop :=
  forall k, In k (x_calls x) ->
    (k_who k = WSesInit -> k_out k = HRet None) /\
    ((forall e, k_who k <> WLast e) -> k_out k <> HPanic /\ ~ asks AAbort k).

Lemma aborted_by c ks c' : runs c ks c' -> c_aborted c = false ->
  (forall k, In k ks -> ~ asks AAbort k) -> c_aborted c' = false.
Proof.
  intros R H0 Hn. rewrite (runs_aborted _ _ _ R), H0. simpl. apply existsb_false_iff.
  intros k Hk. destruct (existsb is_abort (k_acts k)) eqn:E; [|reflexivity].
  apply is_abort_asks in E. exfalso. exact (Hn k Hk E).
Qed.

(** ** C24 *)
Theorem C24_last_handler : forall s l ses path lvl sched,
  hs_main s <> None -> hs_last s = Some l -> legal_order sched ->
  let x := run_http (Some s) ses path lvl sched in
  undisturbed x ->
  exists pre ks kw kl err e,
    x_calls x = pre ++ ks ++ [kw; kl] /\
    (* the initialiser if any, the pipeline, the wait, then the last handler *)
    whos pre = (if ses then [WSesInit] else []) /\
    (exists c c', run_set s c = (ks, c', RRet err)) /\
    k_who kw = WWait /\
    k_who kl = WLast e /\ k_name kl = l_name l /\ l_run l (k_seen kl) e = (k_acts kl, k_out kl) /\
    (* what it receives *)
    (forall goerrs, goerrs = all_started (pre ++ ks) ->
      match err with
      | None => (e = None <-> forall g, In g goerrs -> g = None) /\
                forall y, e = Some y -> In (Some y) goerrs /\ first_error (sched goerrs) = Some y
      | Some p => ((forall g, In g goerrs -> g = None) -> e = Some p) /\
                  ((exists g, In (Some g) goerrs) ->
                   exists g, In (Some g) goerrs /\ first_error (sched goerrs) = Some g /\
                             e = Some (EWrap p (err_text g)))
      end) /\
    x_result x = match k_out kl with HRet e' => RRet e' | HPanic => RPanic end.
Proof.
  intros s l ses path lvl sched Hm Hl Hsch. cbv zeta.
  pose proof (run_http_shape s ses path lvl sched) as Sh. cbv zeta in Sh.
  set (x := run_http (Some s) ses path lvl sched) in *. intros U.
  destruct Sh as [(k & E & Hw & Ho & _)|(ki & c0 & ks & c2 & r & Wki & Hki & HR & Sh)].
  { exfalso. specialize (U k). rewrite E in U. destruct (U (or_introl eq_refl)) as [U1 _].
    exact (Ho (U1 Hw)). }
  pose proof (run_set_runs _ _ _ _ _ HR) as R.
  assert (Sub : forall k, In k (ki ++ ks) -> In k (x_calls x)).
  { intros k Hk. destruct r as [e|].
    - destruct (c_aborted c2); [destruct Sh as [-> _]; exact Hk|].
      destruct Sh as (kw & _ & _ & _ & Sh). cbv zeta in Sh. rewrite Hl in Sh.
      destruct Sh as (kl & -> & _). rewrite app_assoc. apply in_app_iff. auto.
    - destruct Sh as [-> _]. exact Hk. }
  assert (NL : forall k, In k (ki ++ ks) -> forall e, k_who k <> WLast e).
  { intros k Hk. apply in_app_iff in Hk as [Hk|Hk].
    - destruct Hki as [[-> _]|(k' & -> & W & _)]; [destruct Hk|].
      destruct Hk as [<-|[]]. intros e. congruence.
    - apply (pipeline_label s _ ks _ _ k HR Hk). }
  assert (A0 : c_aborted c0 = false).
  { destruct Hki as [[_ ->]|(k & Ek & W & _ & -> & Sn)]; [reflexivity|].
    unfold left_by. rewrite apply_aborted, Sn. cbn [c_aborted new_ctx orb].
    destruct (existsb is_abort (k_acts k)) eqn:Ea; [|reflexivity].
    apply is_abort_asks in Ea. exfalso.
    assert (Ik : In k (ki ++ ks)) by (rewrite Ek; left; reflexivity).
    destruct (U k (Sub k Ik)) as [_ U2]. destruct (U2 (NL k Ik)) as [_ U3]. exact (U3 Ea). }
  assert (A2 : c_aborted c2 = false).
  { apply (aborted_by _ _ _ R A0). intros k Hk.
    assert (Ik : In k (ki ++ ks)) by (apply in_app_iff; auto).
    destruct (U k (Sub k Ik)) as [_ U2]. apply (U2 (NL k Ik)). }
  destruct r as [err|].
  2:{ exfalso. destruct (hs_main s) as [m|] eqn:Em; [|contradiction].
      destruct (run_set_shape s m _ ks c2 RPanic Em HR) as [k0 kb km ka Es _ _ _ _ _ _ _ _ Hend].
      assert (HP : exists k, In k ks /\ k_out k = HPanic).
      { destruct Hend as [[E1 [[X _]|(e' & _ & Y)]]|[_ [(ks0 & k & E2 & _ & He)|(_ & X & _)]]];
          try discriminate.
        - exists k0. rewrite Es. split; [left; reflexivity|exact X].
        - exists k. rewrite Es, E2. split; [right; apply in_app_iff; right; left; reflexivity|].
          destruct He as [[X _]|[(e' & _ & Y)|(_ & _ & Y)]]; congruence. }
      destruct HP as (k & Hk & Hp).
      assert (Ik : In k (ki ++ ks)) by (apply in_app_iff; auto).
      destruct (U k (Sub k Ik)) as [_ U2]. destruct (U2 (NL k Ik)) as [U3 _]. exact (U3 Hp). }
  rewrite A2 in Sh. destruct Sh as (kw & Hkw & _ & Hko & Sh). cbv zeta in Sh. rewrite Hl in Sh.
  destruct Sh as (kl & Ec & Wl & Nl & Sl & Dl & Rl & _).
  assert (Tk : c_tasks c2 = all_started (ki ++ ks)).
  { rewrite (runs_tasks _ _ _ R). cbn [apply1 c_tasks].
    unfold all_started. rewrite flat_map_app. f_equal.
    destruct Hki as [[-> ->]|(k & -> & _ & _ & -> & Sn)]; [reflexivity|].
    rewrite left_by_tasks, Sn. simpl. rewrite app_nil_r. reflexivity. }
  exists ki, ks, kw, kl, err, (combine_err err (first_error (sched (c_tasks c2)))).
  split; [exact Ec|].
  split; [exact Wki|].
  split; [eauto|]. split; [exact Hkw|]. split; [exact Wl|]. split; [exact Nl|].
  split; [rewrite Sl; exact Dl|].
  split; [|exact Rl].
  intros goerrs ->. rewrite <- Tk. set (g := first_error (sched (c_tasks c2))).
  assert (Gn : g = None <-> forall y, In y (c_tasks c2) -> y = None).
  { unfold g. rewrite first_error_none. split; intros H y Hy; apply H.
    - apply (Permutation_in y (Permutation_sym (Hsch (c_tasks c2))) Hy).
    - apply (Permutation_in y (Hsch (c_tasks c2)) Hy). }
  assert (Gi : forall y, g = Some y -> In (Some y) (c_tasks c2)).
  { intros y Hy. apply (Permutation_in (Some y) (Hsch (c_tasks c2))).
    apply first_error_in. exact Hy. }
  destruct err as [p|]; simpl.
  - split.
    + intros H. apply Gn in H. rewrite H. reflexivity.
    + intros (g0 & Hg0). destruct g as [y|] eqn:Eg.
      * exists y. auto.
      * exfalso. specialize (proj1 Gn eq_refl _ Hg0). discriminate.
  - split; [exact Gn|]. intros y Hy. auto.
Qed.
Example C24_ex :
  let s := ex_set nop ([AGo None; AGo (Some boom)], ok) nop nop in
  let x := run_http (Some s) (Some (fun _ => nop)) (B"/p") 5 (fun l => l) in
  undisturbed x /\ x_result x = RRet (Some boom).
Proof.
  split; [|reflexivity]. intros k Hk. simpl in Hk.
  repeat destruct Hk as [<-|Hk]; try contradiction; split; try reflexivity; try discriminate;
    intros H; (split; [discriminate|]); unfold asks; simpl; intuition discriminate.
Qed.

(** ** C25 *)
Theorem C25_abort : forall s ses path lvl sched,
  let x := run_http (Some s) ses path lvl sched in
  forall ks1 k ks2, x_calls x = ks1 ++ k :: ks2 ->
    (forall e, k_who k <> WLast e) -> asks AAbort k ->
    c_cancelled (left_by k) = true /\
    Forall (fun k' => c_cancelled (k_seen k') = true) ks2 /\
    c_cancelled (x_ctx x) = true /\
    (forall e, ~ In (WLast e) (whos (x_calls x))) /\
    (k_who k <> WSesInit ->
      (k_who k <> WInit -> ks2 = []) /\
      exists c ks c' r, run_set s c = (ks, c', r) /\ x_result x = r).
Proof.
  intros s ses path lvl sched. cbv zeta.
  pose proof (run_http_shape s ses path lvl sched) as Sh. cbv zeta in Sh.
  set (x := run_http (Some s) ses path lvl sched) in *.
  intros ks1 k ks2 E Hnl Ha.
  assert (Canc : c_cancelled (left_by k) = true).
  { unfold left_by. rewrite apply_cancelled. apply is_abort_asks in Ha. rewrite Ha. apply orb_true_r. }
  split; [exact Canc|].
  destruct Sh as [(k' & E' & Hw & Ho & Hx & Hr)|(ki & c0 & ks & c2 & r & Wki & Hki & HR & Sh)].
  { rewrite E' in E. destruct ks1 as [|? [|]]; try discriminate. simpl in E. injection E as <- <-.
    split; [constructor|]. rewrite Hx. split; [exact Canc|]. split.
    - intros e. rewrite E'. unfold whos. simpl. rewrite Hw. intros [X|[]]; discriminate.
    - intros X. contradiction. }
  pose proof (run_set_runs _ _ _ _ _ HR) as R.
  assert (CK : forall c l c', runs c l c' -> c_cancelled c = true ->
            Forall (fun k' => c_cancelled (k_seen k') = true) l /\ c_cancelled c' = true).
  { induction 1 as [c|c k' l c' Hs Hl IH]; intros Hc; [auto|].
    assert (S' : c_cancelled (k_seen k') = true).
    { rewrite Hs. destruct (add_debug_flags c (k_name k')) as (_ & _ & _ & -> & _). exact Hc. }
    destruct IH as [F C'].
    { unfold k_post. rewrite apply_cancelled, S'. reflexivity. }
    split; [constructor; auto|exact C']. }
  (* the aborting call is in ki ++ ks, so c2 is aborted *)
  assert (Cases : (In k ki \/ In k ks) -> c_aborted c2 = true).
  { intros [Hk|Hk].
    - rewrite (runs_aborted _ _ _ R). cbn [apply1 c_aborted].
      destruct Hki as [[-> _]|(k' & -> & _ & _ & -> & Sn)]; [destruct Hk|].
      destruct Hk as [->|[]]. unfold left_by. rewrite apply_aborted.
      apply is_abort_asks in Ha. rewrite Ha, orb_true_r. reflexivity.
    - rewrite (runs_aborted _ _ _ R). apply orb_true_iff. right. apply existsb_exists.
      exists k. split; [exact Hk|]. apply is_abort_asks. exact Ha. }
  assert (Mem : In k ki \/ In k ks).
  { assert (I : In k (x_calls x)) by (rewrite E; apply in_app_iff; right; left; reflexivity).
    destruct r as [err|].
    - destruct (c_aborted c2); [destruct Sh as [Ec _]; rewrite Ec in I; apply in_app_iff in I; exact I|].
      destruct Sh as (kw & Hkw & Hka & Hko & Sh). cbv zeta in Sh.
      assert (NW : k <> kw).
      { intros ->. unfold asks in Ha. rewrite Hka in Ha. destruct Ha. }
      destruct (hs_last s) as [l|].
      + destruct Sh as (kl & Ec & Wl & _). rewrite Ec in I.
        apply in_app_iff in I as [I|I]; [auto|]. apply in_app_iff in I as [I|I]; [auto|].
        destruct I as [I|[I|[]]]; [congruence|]. subst kl. exfalso. exact (Hnl _ Wl).
      + destruct Sh as (Ec & _). rewrite Ec in I.
        apply in_app_iff in I as [I|I]; [auto|]. apply in_app_iff in I as [I|I]; [auto|].
        destruct I as [I|[]]. congruence.
    - destruct Sh as [Ec _]. rewrite Ec in I. apply in_app_iff in I. exact I. }
  specialize (Cases Mem).
  assert (Ec : x_calls x = ki ++ ks /\ x_result x = r /\ x_ctx x = c2).
  { destruct r as [err|]; [rewrite Cases in Sh|]; exact Sh. }
  destruct Ec as (Ec & Er & Ex). rewrite Ec in E.
  assert (NoLast : forall e, ~ In (WLast e) (whos (x_calls x))).
  { intros e I. rewrite Ec in I. unfold whos in I. apply in_map_iff in I as (k' & X & I).
    apply in_app_iff in I as [I|I].
    - destruct Hki as [[-> _]|(k0 & -> & W & _)]; [destruct I|]. destruct I as [<-|[]]. congruence.
    - destruct (pipeline_label s _ _ _ _ k' HR I) as (_ & _ & Y). exact (Y e X). }
  rewrite Ex.
  destruct Mem as [Hk|Hk].
  - destruct Hki as [[-> _]|(k' & -> & W & _ & Hc0 & Sn)]; [destruct Hk|].
    destruct Hk as [->|[]].
    assert (ks1 = [] /\ ks2 = ks).
    { destruct ks1 as [|k1 ks1]; [simpl in E; injection E as ->; auto|]. exfalso.
      simpl in E. injection E as <- E. 
      assert (I : In k ks) by (rewrite E; apply in_app_iff; right; left; reflexivity).
      destruct (pipeline_label s _ _ _ _ k HR I) as [X _]. contradiction. }
    destruct H as [-> ->]. 
    destruct (CK _ _ _ R) as [F C']; [cbn [apply1 c_cancelled]; rewrite Hc0; exact Canc|].
    split; [exact F|]. split; [exact C'|]. split; [exact NoLast|]. intros X. contradiction.
  - (* in the pipeline *)
    assert (Sp : exists l1, ks1 = ki ++ l1 /\ ks = l1 ++ k :: ks2).
    { destruct Hki as [[-> _]|(k' & -> & W & _)]; [exists ks1; auto|].
      destruct ks1 as [|k1 ks1].
      - exfalso. simpl in E. injection E as -> _.
        destruct (pipeline_label s _ _ _ _ k HR Hk) as [X _]. contradiction.
      - simpl in E. injection E as <- E. exists ks1. auto. }
    destruct Sp as (l1 & -> & Eks). rewrite Eks in R.
    destruct (runs_split _ _ _ _ _ R) as (c1 & _ & _ & R2).
    destruct (CK _ _ _ R2 Canc) as [F C'].
    split; [exact F|]. split; [exact C'|]. split; [exact NoLast|]. intros Hns. split.
    + intros Hni. destruct (k_out k) as [[e|]|] eqn:Ek.
      * destruct (C20_first_error s _ ks c2 r HR) as [X _].
        destruct (X l1 k ks2 e Eks Ek). assumption.
      * destruct (C21_stop_is_last s _ ks c2 r l1 k ks2 HR Eks Hni) as [X _]; auto. right; exact Ha.
      * destruct (hs_main s) as [m|] eqn:Em.
        -- pose proof (run_set_shape s m _ ks c2 r Em HR) as Shp.
           destruct (ends_unique s m _ ks c2 r l1 k ks2 Shp Eks) as [-> _]; [right; congruence|reflexivity].
        -- unfold run_set in HR. rewrite Em in HR. injection HR as X _ _. rewrite <- X in Eks.
           destruct l1; discriminate.
    + eexists _, ks, c2, r. split; [exact HR|exact Er].
Qed.
Example C25_ex :
  let x := run_http (Some (ex_set nop ([AAbort], ok) nop nop)) None (B"/p") 5 (fun l => l) in
  whos (x_calls x) = [WInit; WBefore 0; WBefore 1] /\ x_result x = RRet None.
Proof. repeat split. Qed.

(** ** C26: false of the code — EGWait cancels Ctx() before RunLast *)
Definition C26_claim : Prop := forall s ses path lvl sched, legal_order sched ->
  let x := run_http (Some s) ses path lvl sched in
  undisturbed x -> forall k e, In k (x_calls x) -> k_who k = WLast e -> c_cancelled (k_seen k) = false.
Theorem C26_ctx_live_in_last_refuted : ~ C26_claim.
Proof.
  intros H.
  specialize (H (ex_set nop nop nop nop) None (B"/p") 5%Z (fun l => l)).
  specialize (H (fun l => Permutation_refl l)). cbv zeta in H.
  match type of H with ?A -> _ => assert (U : A) end.
  { intros k Hk. simpl in Hk.
    repeat destruct Hk as [<-|Hk]; try contradiction; split; try reflexivity; try discriminate;
      intros H'; (split; [discriminate|]); unfold asks; simpl; intuition discriminate. }
  specialize (H U).
  assert (X : exists k e, In k (x_calls (run_http (Some (ex_set nop nop nop nop)) None (B"/p") 5 (fun l => l)))
              /\ k_who k = WLast e /\ c_cancelled (k_seen k) = true).
  { eexists _, None. split; [simpl; do 7 right; left; reflexivity|]. split; reflexivity. }
  destruct X as (k & e & I & W & C). rewrite (H k e I W) in C. discriminate.
Qed.
(** What holds: the context is live for every pipeline handler as long as nobody
    has called Abort (and no goroutine of the group has failed, see [c_cancelled]).
    Missing: the last handler itself, which always sees a cancelled context. *)
Theorem C26_ctx_live_partial : forall s ses path lvl sched,
  let x := run_http (Some s) ses path lvl sched in
  (forall k, In k (x_calls x) -> ~ asks AAbort k) ->
  forall k, In k (x_calls x) ->
    c_cancelled (k_seen k) = match k_who k with WLast _ => true | _ => false end.
Proof.
  intros s ses path lvl sched. cbv zeta.
  assert (LK : forall c l c', runs c l c' -> c_cancelled c = false ->
            (forall k, In k l -> ~ asks AAbort k) ->
            Forall (fun k' => c_cancelled (k_seen k') = false) l /\ c_cancelled c' = false).
  { induction 1 as [c|c k' l c' Hs Hl IH]; intros Hc Hn; [auto|].
    assert (S' : c_cancelled (k_seen k') = false).
    { rewrite Hs. destruct (add_debug_flags c (k_name k')) as (_ & _ & _ & -> & _). exact Hc. }
    destruct IH as [F C'].
    { unfold k_post. rewrite apply_cancelled, S'. simpl.
      destruct (existsb is_abort (k_acts k')) eqn:Ea; [|reflexivity].
      apply is_abort_asks in Ea. exfalso. exact (Hn k' (or_introl eq_refl) Ea). }
    { intros k2 H2. apply Hn. right; exact H2. }
    split; [constructor; auto|exact C']. }
  unfold run_http.
  assert (Core : forall ki c0, (forall k, In k ki -> k_who k = WSesInit /\ c_cancelled (k_seen k) = false) ->
    ((forall k, In k ki -> ~ asks AAbort k) -> c_cancelled c0 = false) ->
    forall x, x = (let c1 := Ctx (c_stopped c0) (c_aborted c0) (c_skip c0) (c_cancelled c0) lvl
                        (c_log c0) (c_tasks c0) in
          match run_set s c1 with
          | (ks, c2, RPanic) => Http (ki ++ ks) None RPanic c2
          | (ks, c2, RRet e) =>
              if c_aborted c2 then Http (ki ++ ks) None (RRet e) c2 
              else
                let '(eg, c3) := eg_wait sched c2 in
                let kw := Call WWait [] c2 [] (HRet eg) in
                let '(kl, c4, r) := run_last s c3 (combine_err e eg) in
                Http (ki ++ ks ++ [kw] ++ kl) None r c4
          end) ->
    (forall k, In k (x_calls x) -> ~ asks AAbort k) ->
    forall k, In k (x_calls x) ->
    c_cancelled (k_seen k) = match k_who k with WLast _ => true | _ => false end).
  { intros ki c0 Hki Hc0 x Hx Hn k Hk. cbv zeta in Hx.
    destruct (run_set s _) as [[ks c2] r] eqn:HR.
    assert (Inc : forall k, In k (ki ++ ks) -> In k (x_calls x)).
    { intros k' H'. destruct r as [e|]; [destruct (c_aborted c2)|]; rewrite Hx; try exact H'.
      unfold eg_wait. destruct (run_last s _ _) as [[kl c4] r]. simpl.
      rewrite app_assoc. apply in_app_iff. auto. }
    pose proof (run_set_runs _ _ _ _ _ HR) as R.
    destruct (LK _ _ _ R) as [F C2].
    { apply Hc0. intros k' H'. apply Hn, Inc, in_app_iff. auto. }
    { intros k' H'. apply Hn, Inc, in_app_iff. auto. }
    assert (InP : In k (ki ++ ks) ->
              c_cancelled (k_seen k) = match k_who k with WLast _ => true | _ => false end).
    { intros H'. apply in_app_iff in H' as [H'|H'].
      - destruct (Hki k H') as [-> ->]. reflexivity.
      - rewrite Forall_forall in F. rewrite (F k H').
        destruct (pipeline_label s _ _ _ _ k HR H') as (_ & _ & Y).
        destruct (k_who k); try reflexivity. exfalso. exact (Y e eq_refl). }
    destruct r as [e|]; [destruct (c_aborted c2)|]; rewrite Hx in Hk; try (exact (InP Hk)).
    unfold eg_wait, run_last in Hk.
    destruct (hs_last s) as [l|].
    - destruct (l_run l _ _) as [acts out]. simpl in Hk. rewrite app_assoc in Hk.
      apply in_app_iff in Hk as [Hk|[<-|[<-|[]]]]; [exact (InP Hk)|exact C2|reflexivity].
    - simpl in Hk. rewrite app_assoc in Hk.
      apply in_app_iff in Hk as [Hk|[<-|[]]]; [exact (InP Hk)|exact C2]. }
  destruct ses as [f|].
  - destruct (f new_ctx) as [acts out] eqn:Ef.
    destruct out as [[e|]|].
    + intros _ k [<-|[]]. reflexivity.
    + eapply (Core _ (apply new_ctx acts)); [| |reflexivity].
      * intros k [<-|[]]. split; reflexivity.
      * intros Hn. rewrite apply_cancelled. simpl.
        destruct (existsb is_abort acts) eqn:Ea; [|reflexivity]. exfalso.
        apply (Hn _ (or_introl eq_refl)).
        apply (is_abort_asks (Call WSesInit [] new_ctx acts (HRet None))). exact Ea.
    + intros _ k [<-|[]]. reflexivity.
  - eapply (Core [] new_ctx); [intros k []|reflexivity|reflexivity].
Qed.

(** ** C27 *)
Theorem C27_debug_names : forall s c ks c' r,
  run_set s c = (ks, c', r) ->
  (forall k l, In k ks -> ~ asks (ASetLevel l) k) ->
  c_log c' = c_log c ++ (if (5 <=? c_level c)%Z then map k_name ks else []).
Proof.
  intros s c ks c' r H Hn. apply (runs_log c ks c' (run_set_runs s c ks c' r H)).
  apply Forall_forall. intros k Hk. apply existsb_false_iff. intros a Ha.
  destruct a as [| | | |l]; try reflexivity. exfalso. exact (Hn k l Hk Ha).
Qed.
(** ... for a whole request: at debug level the list is the names of the pipeline's
    calls, Init under the main handler's name (by C18's [genuine]). *)
Theorem C27_request_debug_names : forall s path lvl sched,
  let x := run_http (Some s) None path lvl sched in
  (forall k l, In k (x_calls x) -> ~ asks (ASetLevel l) k) ->
  c_log (x_ctx x) =
    if (5 <=? lvl)%Z
    then map k_name (filter (fun k => match k_who k with WWait | WLast _ => false | _ => true end) (x_calls x))
    else [].
Proof.
  intros s path lvl sched. cbv zeta. unfold run_http.
  cbn [new_ctx c_stopped c_aborted c_skip c_cancelled c_log c_tasks].
  destruct (run_set s _) as [[ks c2] r] eqn:HR. intros Hn.
  assert (KP : forall tl, filter (fun k => match k_who k with WWait | WLast _ => false | _ => true end) tl = [] ->
     filter (fun k => match k_who k with WWait | WLast _ => false | _ => true end) (ks ++ tl) = ks).
  { intros tl Et. rewrite filter_app, Et, app_nil_r.
    assert (G : forall k, In k ks -> (match k_who k with WWait | WLast _ => false | _ => true end) = true).
    { intros k Hk. destruct (pipeline_label s _ _ _ _ k HR Hk) as (A1 & A2 & A3).
      destruct (k_who k) as [| | | | | |e]; try reflexivity; [contradiction|exfalso; exact (A3 e eq_refl)]. }
    revert G. clear. induction ks as [|k ks IH]; intros G; [reflexivity|]. simpl.
    rewrite (G k (or_introl eq_refl)). f_equal. apply IH. intros k' H'. apply G. right; exact H'. }
  assert (L : (forall k l, In k ks -> ~ asks (ASetLevel l) k) ->
     c_log c2 = if (5 <=? lvl)%Z then map k_name ks else []).
  { intros Hn'. rewrite (C27_debug_names s _ ks c2 r HR Hn'). reflexivity. }
  destruct r as [e|]; [destruct (c_aborted c2)|].
  - simpl in *. rewrite (L Hn). rewrite <- (KP []) at 1 by reflexivity. rewrite app_nil_r. reflexivity.
  - unfold eg_wait in *. unfold run_last in *. destruct (hs_last s) as [l|].
    + destruct (l_run l _ _) as [acts out]. simpl in Hn |- *.
      rewrite KP by reflexivity.
      fold (apply (Ctx (c_stopped c2) (c_aborted c2) (c_skip c2) true (c_level c2) (c_log c2) (c_tasks c2)) acts).
      rewrite apply_log. simpl. apply L. intros k lv Hk. apply Hn. apply in_app_iff. auto.
    + simpl in Hn |- *. rewrite KP by reflexivity. apply L. intros k lv Hk. apply Hn. apply in_app_iff. auto.
  - simpl in *. rewrite (L Hn). rewrite <- (KP []) at 1 by reflexivity. rewrite app_nil_r. reflexivity.
Qed.
Example C27_ex :
  c_log (x_ctx (run_http (Some (ex_set nop ([AStop], ok) nop nop)) None (B"/p") 5 (fun l => l)))
    = [B"main"; B"b0"; B"b1"] /\
  c_log (x_ctx (run_http (Some (ex_set nop nop nop nop)) None (B"/p") 4 (fun l => l))) = [].
Proof. split; reflexivity. Qed.

(** ** C28 *)
Theorem C28_no_route_no_handler : forall ses path lvl sched,
  (let x := run_http None ses path lvl sched in
   x_calls x = [] /\ x_status x = Some 404%N /\
   exists e, x_result x = RRet (Some e) /\ err_text e = B"path '" ++ path ++ B"' not found") /\
  (forall s f acts e, ses = Some f -> f new_ctx = (acts, HRet (Some e)) ->
   let x := run_http (Some s) ses path lvl sched in
   whos (x_calls x) = [WSesInit] /\
   exists e', x_result x = RRet (Some e') /\ err_text e' = B"path '" ++ path ++ B"': " ++ err_text e).
Proof.
  intros ses path lvl sched. split.
  - cbv zeta. simpl x_calls. simpl x_status. repeat split. eexists. split; reflexivity.
  - intros s f acts e -> E. cbv zeta. unfold run_http. rewrite E. split; [reflexivity|].
    eexists. split; reflexivity.
Qed.
Example C28_ex :
  let x := run_http (Some (ex_set nop nop nop nop)) (Some (fun _ => ([], HRet (Some boom)))) (B"/p") 5 (fun l => l) in
  x_result x = RRet (Some (EUser 0 (B"path '/p': boom"))).
Proof. reflexivity. Qed.

Print Assumptions C18_pipeline_order.
Print Assumptions C19_full_pipeline.
Print Assumptions C20_first_error.
Print Assumptions C21_stop_is_last.
Print Assumptions C22_stop_in_init_refuted.
Print Assumptions C22_stop_in_init_partial.
Print Assumptions C22_exactly_one_more.
Print Assumptions C23_skip_main.
Print Assumptions C24_last_handler.
Print Assumptions C25_abort.
Print Assumptions C26_ctx_live_in_last_refuted.
Print Assumptions C26_ctx_live_partial.
Print Assumptions C27_debug_names.
Print Assumptions C27_request_debug_names.
Print Assumptions C28_no_route_no_handler.
