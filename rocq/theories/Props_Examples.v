(** C169: the example programs. *)
From Verif Require Import Base GoStrings GoErrors GoSlices M_Tree M_RegTree S_Route S_Choice P_RegTree M_Server S_Server P_Server S_History M_Examples S_Examples.
From Verif Require M_Router S_Router S_Copies P_Copies M_Pipeline S_Pipeline M_Auth Props_RegTree Props_Server Props_History Props_Choice Props_Tree.
Import Props_RegTree Props_Server.

(** ** Plans without regular expressions: the reference search decides *)
Definition found_in (p : plan) (m : bytes) (segs : list bytes) : option (route * args) :=
  match ref_find (map entry_of (path_regs p)) m segs with
  | (TFound i, a) => match nth_error (p_routes p) i with Some x => Some (x, a) | None => None end
  | _ => None
  end.
Lemma picks_found matches p m path c : well_formed p -> (forall x mt e, In x (p_routes p) -> o_key x <> M_Router.KReg mt e) ->
  picks matches p m path c -> c = found_in p m (segments path).
Proof.
  intros Wf Nr Pk. unfold found_in.
  assert (W : forallb (fun r => wf_routeb (r_route r)) (path_regs p) = true).
  { apply forallb_forall. intros g Hg. apply in_paths in Hg. destruct Hg as (k & [key kt] & _ & Hk & Ek). cbn in Ek. subst key. apply (Wf _ _ kt (nth_error_In _ _ Hk)). }
  destruct Pk as [i g x Hg An Hx|k x mt e No Hx Kx Cv Me Mx|No Al].
  - assert (F : tree_find (routed (path_regs p)) m path [] = (TFound (r_set g), bindings (pattern_of (r_route g)) (segments path))).
    { apply (Props_Choice.C128_who_answers nat _ m path [] W). exists i, g. auto. }
    rewrite (Props_Tree.C05_reference_semantics nat _ m path [] W) in F. rewrite F, Hx. reflexivity.
  - exfalso. exact (Nr x mt e (nth_error_In _ _ Hx) Kx).
  - apply (proj2 (Props_Choice.C128_not_found nat (path_regs p) m path [] W)) in No. rewrite (Props_Tree.C05_reference_semantics nat _ m path [] W) in No. rewrite No. reflexivity.
Qed.

(** [pages]: the routes of the plan, exactly *)
Definition tabulates (p : plan) (pages : page_table) : Prop :=
  forall m segs, match found_in p m segs with
                 | Some (x, a) => exists main, kt_main (o_kit x) = Some main /\ kt_last (o_kit x) = None /\
                                    pages m segs (kt_before (o_kit x)) main (kt_after (o_kit x)) a
                 | None => forall bs main as_ a, ~ pages m segs bs main as_ a
                 end.
Definition unambiguous (pages : page_table) : Prop :=
  forall m segs b1 m1 a1 x1 b2 m2 a2 x2, pages m segs b1 m1 a1 x1 -> pages m segs b2 m2 a2 x2 -> b1 = b2 /\ m1 = m2 /\ a1 = a2 /\ x1 = x2.

(** ** The claim about a program that makes the calls [cs] *)
Section Program.
  Variables (grow : nat -> nat -> nat) (uni : bytes -> bytes) (matches : rgx -> bytes -> bool) (cd : code).
  (** handlers as in the examples: they answer nil and neither stop anything nor skip or start anything *)
  Definition plain_code : Prop :=
    (forall k a, calm (M_Pipeline.h_run (c_handler cd k a))) /\
    (forall k a, calm (M_Pipeline.m_init (c_main cd k a)) /\ calm (M_Pipeline.m_run (c_main cd k a))) /\
    (forall k a e c, M_Pipeline.l_run (c_last cd k a) c e = ([], M_Pipeline.HRet None)).
  (** The program gets to Run, and a request then calls Init of the main handler of its page, the handlers before, the main handler and those
      after (then the goroutines are waited for, the entry without a name), all with the page's parameters; if there is no such page the answer
      is 404 and nobody is called. *)
  Definition serves_pages (cs : list scall) (pages : page_table) : Prop :=
    exists evs s, history grow uni matches cd new_server cs = (evs, Ok s) /\
      forall rq lk, any_order (l_order lk) -> S_Pipeline.legal_order (l_sched lk) ->
        exists h, request uni matches cd s rq lk = ([M_Auth.EvLookup (M_Auth.rq_method rq) (M_Auth.rq_path rq); M_Auth.EvPipeline h], Ok tt) /\
          (forall front main back a, pages (M_Auth.rq_method rq) (segments (M_Auth.rq_path rq)) front main back a ->
             M_Pipeline.x_status h = None /\ M_Pipeline.x_result h = M_Pipeline.RRet None /\
             map M_Pipeline.k_name (M_Pipeline.x_calls h) =
               [M_Pipeline.m_name (c_main cd main a)] ++ map (fun k => M_Pipeline.h_name (c_handler cd k a)) front ++
               [M_Pipeline.m_name (c_main cd main a)] ++ map (fun k => M_Pipeline.h_name (c_handler cd k a)) back ++ [[]]) /\
          ((forall front main back a, ~ pages (M_Auth.rq_method rq) (segments (M_Auth.rq_path rq)) front main back a) ->
             M_Pipeline.x_status h = Some 404%N /\ M_Pipeline.x_calls h = []).

  Lemma program cs pages : forallb S_Router.tidy (ops cs) = true -> S_Copies.disciplined (S_Copies.Bufs [] [] [] 0) (ops cs) ->
    well_formed (planned cs) -> (forall x mt e, In x (p_routes (planned cs)) -> o_key x <> M_Router.KReg mt e) ->
    lucks_ok cs -> fits nothing cs -> p_auth (planned cs) = Some M_Auth.new_auth -> p_ses (planned cs) = None ->
    tabulates (planned cs) pages -> unambiguous pages -> plain_code -> serves_pages cs pages.
  Proof.
    intros Td Di Wf Nr Lu Fi Au Se Tb Un (C1 & C2 & C3).
    assert (Cr : code_returns cd).
    { split; [|split]; [intros k a c|intros k a; split; intros c|intros k a c e]; [rewrite C1|rewrite (proj1 (C2 k a))|rewrite (proj2 (C2 k a))|rewrite C3]; discriminate. }
    destruct (Props_History.C147_no_panic grow uni matches cd cs Td Di Wf Lu Cr Fi) as (evs & s & Hh).
    exists evs, s. split; [exact Hh|]. intros rq lk Ao Lo.
    destruct (C131_end_to_end grow uni matches cd cs evs s rq lk Td Di Wf Hh Ao) as (c0 & Pk0 & _).
    pose proof (picks_found _ _ _ _ _ Wf Nr Pk0) as E0. specialize (Tb (M_Auth.rq_method rq) (segments (M_Auth.rq_path rq))). rewrite <- E0 in Tb.
    destruct c0 as [[x a]|].
    - destruct Tb as (main & Em & El & Pg).
      destruct (C131_normal_request grow uni matches cd cs evs s Td Di Wf Hh rq lk x a main M_Auth.new_auth Ao Lo) as (h & R & St & Rs & Nm & _); try assumption.
      { intros c Pk. rewrite (picks_found _ _ _ _ _ Wf Nr Pk). symmetry. exact E0. }
      { reflexivity. }
      { apply C2. } { apply C2. } { intros k _. apply C1. } { intros k _ e c. apply C3. }
      rewrite El in Nm. exists h. split; [exact R|]. split.
      + intros front main' back a' Pg'. destruct (Un _ _ _ _ _ _ _ _ _ _ Pg' Pg) as (-> & -> & -> & ->). split; [exact St|]. split; [exact Rs|]. exact Nm.
      + intros No. exfalso. exact (No _ _ _ _ Pg).
    - destruct (C131_no_route grow uni matches cd cs evs s Td Di Wf Hh rq lk M_Auth.new_auth Ao Pk0 Au eq_refl) as (h & R & St & Cl).
      exists h. split; [exact R|]. split; [intros front main back a Pg; exfalso; exact (Tb _ _ _ _ Pg)|]. auto.
  Qed.
End Program.

(** ** The tables of the two programs *)
Lemma no_first {HS} (tbl : list (entry HS)) x rest b : (forall g, In g (map fst (alternatives tbl)) -> seg_fits g x = false) -> endpoints (x :: rest) tbl b = [].
Proof.
  cbn [endpoints]. induction (alternatives tbl) as [|[g t] l IH]; intros H; [reflexivity|]. cbn [flat_map fst snd]. rewrite (H g (or_introl eq_refl)). cbn [app].
  apply IH. intros g' I. apply H. right. exact I.
Qed.
Lemma lit_no l x : x <> l -> seg_fits (Lit l) x = false.
Proof. intros N. cbn [seg_fits]. destruct (beq x l) eqn:E; [apply beq_eq in E; contradiction|]. try reflexivity; destruct (beq l x) eqn:E'; [apply beq_eq in E'; congruence|reflexivity]. Qed.
Lemma method_cases m : m = B"GET" \/ m = B"POST" \/ (covers MethodGetPost m = false /\ covers MethodGet m = false /\ covers MethodPost m = false).
Proof.
  destruct (beq m (B"GET")) eqn:E1; [left; apply beq_eq; exact E1|]. destruct (beq m (B"POST")) eqn:E2; [right; left; apply beq_eq; exact E2|]. right. right.
  assert (S : forall a b : bytes, beq a b = false -> beq b a = false).
  { intros a b H. destruct (beq b a) eqn:E; [|reflexivity]. apply beq_eq in E. subst. rewrite (proj2 (beq_eq a a) eq_refl) in H. discriminate. }
  change (B"GET") with MethodGet in E1. change (B"POST") with MethodPost in E2. unfold covers.
  change (beq MethodGetPost MethodGetPost) with true. change (beq MethodGet MethodGetPost) with false. change (beq MethodGet MethodGetHead) with false.
  change (beq MethodPost MethodGetPost) with false. change (beq MethodPost MethodGetHead) with false. cbv iota. rewrite E1, E2, (S _ _ E1), (S _ _ E2). auto.
Qed.
Ltac uncovered m M1 M2 M3 := unfold answer; cbn [rev app find fst];
  repeat match goal with |- context [covers ?l m] =>
    first [change (covers l m) with (covers MethodGet m); rewrite M2 | change (covers l m) with (covers MethodPost m); rewrite M3 | change (covers l m) with (covers MethodGetPost m); rewrite M1] end.
Ltac ending := match goal with
  | |- exists _, _ => eexists; split; [reflexivity|]; split; [reflexivity|]; cbn; econstructor; cbn; tauto
  | |- forall _, _ => let P := fresh in intros ? ? ? ? P; inversion P; subst; try congruence; try (cbn in *; intuition discriminate)
  end.
(** by the method of the request *)
Ltac by_method m := let M1 := fresh in let M2 := fresh in let M3 := fresh in
  destruct (method_cases m) as [->|[->|(M1 & M2 & M3)]];
  [cbn; ending|cbn; ending|
   cbn -[covers answer]; uncovered m M1 M2 M3; cbn; intros ? ? ? ? P; inversion P; subst;
   first [discriminate M1|discriminate M2|discriminate M3|match goal with H : In _ _ |- _ => destruct H as [<-|[<-|[]]]; discriminate M1 end]].

Definition tbl1 := Eval vm_compute in (map entry_of (path_regs (planned example_1))).
Definition rts1 := Eval vm_compute in (p_routes (planned example_1)).
Lemma found1 m segs : found_in (planned example_1) m segs =
  match ref_find tbl1 m segs with
  | (TFound i, a) => match nth_error rts1 i with Some x => Some (x, a) | None => None end
  | _ => None
  end.
Proof. unfold found_in. change (map entry_of (path_regs (planned example_1))) with tbl1. change (p_routes (planned example_1)) with rts1. reflexivity. Qed.
Definition firsts1 : list bytes := [B"private_group"; B"a"; B"b"; B"c"; B"user"].
Lemma tabulates_1 : tabulates (planned example_1) pages_1.
Proof.
  intros m segs. rewrite found1. destruct segs as [|x segs]; [by_method m|].
  destruct (in_dec (list_eq_dec ascii_dec) x firsts1) as [I|N].
  - cbn [firsts1 In] in I. destruct I as [<-|[<-|[<-|[<-|[<-|[]]]]]].
    1-4: destruct segs as [|y segs]; [by_method m|cbn; ending].
    destruct segs as [|y segs]; [by_method m|]. destruct segs as [|z segs]; [by_method m|]. destruct segs as [|w segs]; [by_method m|cbn; ending].
  - unfold ref_find. rewrite no_first.
    + intros ? ? ? ? P; inversion P; subst; apply N; cbn; tauto.
    + intros g Hg. vm_compute in Hg. repeat (destruct Hg as [<-|Hg]; [apply lit_no; intros ->; apply N; cbn; tauto|]). destruct Hg.
Qed.
Definition tbls := Eval vm_compute in (map entry_of (path_regs (planned example_server))).
Definition rtss := Eval vm_compute in (p_routes (planned example_server)).
Lemma founds m segs : found_in (planned example_server) m segs =
  match ref_find tbls m segs with
  | (TFound i, a) => match nth_error rtss i with Some x => Some (x, a) | None => None end
  | _ => None
  end.
Proof. unfold found_in. change (map entry_of (path_regs (planned example_server))) with tbls. change (p_routes (planned example_server)) with rtss. reflexivity. Qed.
Lemma tabulates_s : tabulates (planned example_server) pages_server.
Proof.
  intros m segs. rewrite founds. destruct segs as [|x segs]; [by_method m|].
  destruct (in_dec (list_eq_dec ascii_dec) x [B"private_group"; B"a"]) as [I|N].
  - cbn [In] in I. destruct I as [<-|[<-|[]]].
    all: destruct segs as [|y segs]; [by_method m|cbn; ending].
  - unfold ref_find. rewrite no_first.
    + intros ? ? ? ? P; inversion P; subst; apply N; cbn; tauto.
    + intros g Hg. vm_compute in Hg. repeat (destruct Hg as [<-|Hg]; [apply lit_no; intros ->; apply N; cbn; tauto|]). destruct Hg.
Qed.
Lemma unambiguous_1 : unambiguous pages_1.
Proof. intros m segs b1 m1 a1 x1 b2 m2 a2 x2 P Q. destruct P; inversion Q; subst; auto. Qed.
Lemma unambiguous_s : unambiguous pages_server.
Proof. intros m segs b1 m1 a1 x1 b2 m2 a2 x2 P Q. destruct P; inversion Q; subst; auto. Qed.

Lemma no_requests cs : forallb (fun c => negb (is_request c)) cs = true -> lucks_ok cs.
Proof. intros H rq lk I. rewrite forallb_forall in H. discriminate (H _ I). Qed.
Definition no_expr (p : plan) : bool := forallb (fun x => match o_key x with M_Router.KPath _ _ => true | _ => false end) (p_routes p).
Lemma no_exprs p : no_expr p = true -> forall x mt e, In x (p_routes p) -> o_key x <> M_Router.KReg mt e.
Proof. intros H x mt e I E. unfold no_expr in H. rewrite forallb_forall in H. specialize (H _ I). rewrite E in H. discriminate H. Qed.

(** C169: what the example programs do, for every request. *)
Theorem C169_example_server : forall grow uni matches cd, plain_code cd -> serves_pages grow uni matches cd example_server pages_server.
Proof.
  intros grow uni matches cd P. apply program; [reflexivity|apply P_Copies.disciplinedb_ok; reflexivity|apply well_formed_b; vm_compute; reflexivity|apply no_exprs; vm_compute; reflexivity|
    apply no_requests; reflexivity| |reflexivity|reflexivity|apply tabulates_s|apply unambiguous_s|exact P].
  cbn. repeat (split; [first [exact I|lia|split; [lia|exact I]|intros; discriminate]|]). exact I.
Qed.
Theorem C169_example_1 : forall grow uni matches cd, plain_code cd -> serves_pages grow uni matches cd example_1 pages_1.
Proof.
  intros grow uni matches cd P. apply program; [reflexivity|apply P_Copies.disciplinedb_ok; reflexivity|apply well_formed_b; vm_compute; reflexivity|apply no_exprs; vm_compute; reflexivity|
    apply no_requests; reflexivity| |reflexivity|reflexivity|apply tabulates_1|apply unambiguous_1|exact P].
  cbn. repeat (split; [first [exact I|lia|split; [lia|exact I]|intros; discriminate]|]). exact I.
Qed.

(** Not vacuous: handlers as asked for exist, pages with and without parameters, requests without a page (a POST of a GET page, a path too long). *)
Example C169_case :
  plain_code ex_code /\ any_order (l_order ex_luck) /\ S_Pipeline.legal_order (l_sched ex_luck) /\
  pages_1 (B"GET") (segments (B"/user/7/edit")) [] m_action [hB9; hB10] [(B"user_id", B"7"); (B"action", B"edit")] /\
  pages_server (B"POST") (segments (B"/a/")) [hA1; hA2; hA3] m_posta [] [] /\
  (forall b m a x, ~ pages_1 (B"POST") (segments (B"/c")) b m a x) /\ (forall b m a x, ~ pages_server (B"GET") (segments (B"/a/b")) b m a x).
Proof.
  split; [repeat split; reflexivity|]. split; [intros l; apply Permutation.Permutation_refl|]. split; [intros l; apply Permutation.Permutation_refl|].
  split; [vm_compute; constructor|]. split; [vm_compute; constructor|]. split; intros b m a x H; vm_compute in H; inversion H.
Qed.
Print Assumptions C169_example_server.
Print Assumptions C169_example_1.
