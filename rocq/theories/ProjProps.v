(** C72-C76.  From the text of the YAML files to what is executed: a project whose targets are
    defined in YAML, read into the registry and run by the controller under any schedule.

    [docs]: the YAML documents.  [s]: the targets and the registry that reading them left.
    [objs']: the targets of [s] with the contents of those that other decoders made filled in.
    [leafp]: what the bodies of commands and the like do; they request no targets.  The
    vocabulary is in ProjSpec.v. *)
From stdpp Require Import base gmap list strings relations.
From Verif Require Import PathModel FindModel ContextModel RunnerModel RunnerSpec RunnerSpec2 RunnerProofs3 YamlModel YamlSpec ProjModel ProjSpec.
From Verif Require Import ProjProofs ProjProofs2 ProjProofs3 ProjProofs4 ProjProofs5 RunnerProps RunnerProps2 YamlProps.
Local Open Scope list_scope.

(** ** C72.  If a call of Run that asks for a registered target (as it is, or with arguments) returns nil, then everything that
    the target's definition requires has been carried out without error before the return: a body
    was run for each part (of a part, ...), for what each name stands for, and for the rules that
    make its input files (if only one does, and it was read).  In particular every name was
    defined. *)
Theorem C72_success_means_done top fns leaf ybool docs ne s lf objs' addr leafp l1 c p cx ts l2 t q doc o :
  loads top fns leaf ybool docs ne s -> expands lf (snd <$> y_reg s) (y_objs s) objs' ->
  (forall o1 o2, addr o1 = addr o2 -> o1 = o2) -> defined_once top docs ->
  executes (project_world addr objs' leafp) (snd <$> y_reg s) (l1 ++ EvRet c p None :: l2) ->
  EvCall c p cx ts ∈ l1 -> t ∈ ts -> asks_for (y_objs s) objs' t o -> y_reg s !! q = Some (doc, o) ->
  exists dir k v, defines top docs dir q k v /\
    forall d m, required top fns docs lf false (fun q => is_Some (y_reg s !! q)) dir v d m ->
      (tagged m -> exists x, means top fns leaf ybool docs (y_objs s) d m x /\ ended_well x l1) /\
      (forall q', reference top d m q' -> exists dir' k' v', defines top docs dir' q' k' v').
Proof.
  intros Hl He Hi Ho Hx Hc Ht Hf Hq.
  exact (success_lem _ _ _ _ _ _ _ _ _ Hl He _ _ Hi Ho false _ _ _ _ _ _ _ _ _ _ Hx ltac:(discriminate) Hc Ht Hf Hq).
Qed.
Print Assumptions C72_success_means_done.

(** ** C73.  If it returns an error, then among what is involved in the definition of one of the
    targets asked for there is a cause: a name that is not registered, a rule whose own work (on
    hashes) failed, or a command (or the like) whose body returned an error. *)
Theorem C73_failure_has_a_cause top fns leaf ybool docs ne s lf objs' addr leafp tr c cx ts e :
  loads top fns leaf ybool docs ne s -> expands lf (snd <$> y_reg s) (y_objs s) objs' ->
  (forall o1 o2, addr o1 = addr o2 -> o1 = o2) -> (forall o cx ts, ~ may_call (leafp o cx) ts) ->
  executes (project_world addr objs' leafp) (snd <$> y_reg s) tr -> clients_ask_registered s objs' tr ->
  EvCall c None cx ts ∈ tr -> EvRet c None (Some e) ∈ tr ->
  exists t q doc o dir k v d m, t ∈ ts /\ asks_for (y_objs s) objs' t o /\ y_reg s !! q = Some (doc, o) /\ defines top docs dir q k v /\
    involved top fns docs lf dir v d m /\
    ((exists q, reference top d m q /\ y_reg s !! q = None) \/
     (exists ins outs x g a k, rule top fns lf d m ins outs /\ means top fns leaf ybool docs (y_objs s) d m x /\
        EvEnd g a x (Some (EBody k)) ∈ tr) \/
     (exists t x, has_tag m t /\ t ∉ ["All"; "Seq"; "Deps"; "ArgTarget"; "Files"] /\
        means top fns leaf ybool docs (y_objs s) d m x /\ ended_badly x tr)).
Proof. intros Hl He Hi Hq Hx Hcl Hc Hr. exact (failure_lem _ _ _ _ _ _ _ _ _ Hl He _ _ Hi Hq _ _ _ _ _ Hx Hcl Hc Hr). Qed.
Print Assumptions C73_failure_has_a_cause.

(** ** C74.  Nothing else runs: every body that is started belongs to a node involved in the
    definition of a target that a client asked for, or it is that of the ArgTarget that a client
    made of the target to give it arguments. *)
Theorem C74_only_what_is_involved_runs top fns leaf ybool docs ne s lf objs' addr leafp tr g a x cx :
  loads top fns leaf ybool docs ne s -> expands lf (snd <$> y_reg s) (y_objs s) objs' ->
  (forall o1 o2, addr o1 = addr o2 -> o1 = o2) -> (forall o cx ts, ~ may_call (leafp o cx) ts) ->
  executes (project_world addr objs' leafp) (snd <$> y_reg s) tr -> clients_ask_registered s objs' tr ->
  EvStart g a x cx ∈ tr ->
  exists c cx' ts t q doc o dir k v, EvCall c None cx' ts ∈ tr /\ t ∈ ts /\ asks_for (y_objs s) objs' t o /\
    y_reg s !! q = Some (doc, o) /\ defines top docs dir q k v /\
    ((t = TPtr x /\ x <> o) \/
     exists d m, involved top fns docs lf dir v d m /\ belongs top fns leaf ybool docs (y_objs s) objs' d m x).
Proof. intros Hl He Hi Hq Hx Hcl Hs. exact (runs_lem _ _ _ _ _ _ _ _ _ Hl He _ _ Hi Hq _ _ _ _ _ Hx Hcl Hs). Qed.
Print Assumptions C74_only_what_is_involved_runs.

(** ** C76.  If no definition uses itself (through parts, names, and rules that make its inputs;
    the order is well-founded) every call returns, however the scheduler proceeds. *)
Theorem C76_no_cycle_returns top fns leaf ybool docs ne s lf objs' addr leafp sched st :
  loads top fns leaf ybool docs ne s -> expands lf (snd <$> y_reg s) (y_objs s) objs' ->
  (forall o1 o2, addr o1 = addr o2 -> o1 = o2) -> (forall o cx ts, ~ may_call (leafp o cx) ts) ->
  (forall o cx, finite (leafp o cx)) ->
  run (project_world addr objs' leafp) init sched = Some st ->
  (forall n o, EvRegister n o ∈ s_log st -> (snd <$> y_reg s) !! n = Some o) ->
  well_founded (fun b a : string * node => uses top fns docs lf a.1 a.2 b.1 b.2) ->
  inevitable (project_world addr objs' leafp) (fun st => all_returned (s_log st)) st.
Proof. intros. by eapply returns_lem. Qed.
Print Assumptions C76_no_cycle_returns.

(** A cycle elsewhere does no harm: a call returns if the definitions of the targets that it asks
    for do not lead into a cycle (under a fair schedule, whatever else is going on). *)
Theorem C76_cycle_elsewhere_returns top fns leaf ybool docs ne s lf objs' addr leafp (h : nat -> state) chs n c p cx ts :
  loads top fns leaf ybool docs ne s -> expands lf (snd <$> y_reg s) (y_objs s) objs' ->
  (forall o1 o2, addr o1 = addr o2 -> o1 = o2) -> (forall o cx ts, ~ may_call (leafp o cx) ts) ->
  (forall o cx, finite (leafp o cx)) -> defined_once top docs ->
  execution (project_world addr objs' leafp) h chs -> fair (project_world addr objs' leafp) h chs ->
  (forall n m o, EvRegister m o ∈ s_log (h n) -> (snd <$> y_reg s) !! m = Some o) ->
  EvCall c p cx ts ∈ s_log (h n) ->
  (forall t, t ∈ ts -> exists q doc o dir k v, asks_for (y_objs s) objs' t o /\ y_reg s !! q = Some (doc, o) /\ defines top docs dir q k v /\
     Acc (fun b a : string * node => uses top fns docs lf a.1 a.2 b.1 b.2) (dir, v)) ->
  exists m e, n <= m /\ EvRet c p e ∈ s_log (h m).
Proof.
  intros Hl He Hi Hq Hfin Honce Hex Hf Hreg Hc Hts. eapply fair_returns_lem'; [done..|exact Hc| |done].
  intros t Ht. destruct (Hts t Ht) as (q & doc & o & dir & k & v & Hfor & Hr & Hd & Ha). exists q, doc, o. split; [done|]. split; [done|].
  by exists dir, k, v.
Qed.
Print Assumptions C76_cycle_elsewhere_returns.

(** In terms of a rank: every name that occurs in a definition, and every name whose definition
    contains a rule that makes an input of a rule in the definition, has a lower rank. *)
Theorem C76_ranked_returns top fns leaf ybool docs ne s lf objs' addr leafp sched st (rk : string -> nat) :
  loads top fns leaf ybool docs ne s -> expands lf (snd <$> y_reg s) (y_objs s) objs' ->
  (forall o1 o2, addr o1 = addr o2 -> o1 = o2) -> (forall o cx ts, ~ may_call (leafp o cx) ts) ->
  (forall o cx, finite (leafp o cx)) ->
  run (project_world addr objs' leafp) init sched = Some st ->
  (forall n o, EvRegister n o ∈ s_log st -> (snd <$> y_reg s) !! n = Some o) ->
  (forall q dir k v m, defines top docs dir q k v -> inside v m ->
    (forall q' dir' k' v', reference top dir m q' -> defines top docs dir' q' k' v' -> rk q' < rk q) /\
    (forall ins outs q' dir' n' ins' outs', rule top fns lf dir m ins outs -> written top docs q' dir' n' ->
       rule top fns lf dir' n' ins' outs' -> makes outs' ins -> rk q' < rk q)) ->
  inevitable (project_world addr objs' leafp) (fun st => all_returned (s_log st)) st.
Proof. intros Hl He Hi Hq Hf Hr Hreg Hrk. exact (C76_no_cycle_returns _ _ _ _ _ _ _ _ _ _ _ _ _ Hl He Hi Hq Hf Hr Hreg (ranked_wf _ _ _ _ rk Hrk)). Qed.
Print Assumptions C76_ranked_returns.

(** ** A concrete project. *)
Definition cmd (x : string) : node := sq "!Command" [sc x].
Definition rule_node (t : node) (i o : string) : node :=
  mp "!Files" [(sc "Target", t); (sc "In", sq "!!seq" [sc i]); (sc "Out", sq "!!seq" [sc o])].
Definition n_main : node := sq "!Seq" [sc "Gen"; sc "sub/Lint"; rule_node (cmd "use") "mid" "out"].
Definition n_gen : node := rule_node (cmd "gen") "in" "mid".
Definition n_bad : node := sq "!All" [sc "Gen"; sc "Nowhere"].
Definition n_lint : node := sq "!Deps" [cmd "lint"; cmd "prep"].
Definition main_entries : list (node * node) := [ (sc "zero", cmd "true"); (sc "Main", n_main); (sc "Gen", n_gen); (sc "Bad", n_bad) ].
Definition sub_entries : list (node * node) := [ (sc "_dir", sc "sub"); (sc "Lint", n_lint) ].
Definition pdocs (f : string) : option node :=
  if decide (f = "/p") then Some (document main_entries) else if decide (f = "/p/sub") then Some (document sub_entries) else None.
Definition proj : ystate :=
  match ReadYAMLFile "/p" pdocs ne0 (YAMLTarget "/p" fns0 leaf0 ybool0 pdocs ne0 20) "" s_empty with ROk s _ => s | _ => s_empty end.
Definition no_rules (t : string) (n : node) (dir : string) : option (list string * list string) := None.
Definition ok_leaf (o : nat) (cx : ctx) : prog := Ret None.
(* the command gen of target 9 fails *)
Definition bad_leaf (o : nat) (cx : ctx) : prog := if decide (o = 9) then Ret (Some (EBody 1)) else Ret None.
Definition pworld (leafp : nat -> ctx -> prog) : world := project_world (fun o => 100 + o) (y_objs proj) leafp.
Definition pregs : list choice := [ChRegister "zero" 0; ChRegister "Main" 8; ChRegister "Gen" 10; ChRegister "Bad" 13; ChRegister "sub/Lint" 5].
Definition plog (leafp : nat -> ctx -> prog) (o : nat) : list event := s_log (client 300 (pworld leafp) init (pregs ++ [ChRun Background [TPtr o]])).

Lemma proj_loads : loads "/p" fns0 leaf0 ybool0 pdocs ne0 proj.
Proof. exists 20. left. vm_compute. reflexivity. Qed.
Lemma proj_objs : y_objs proj =
  [SLeaf "Command" (cmd "true") ""; SRef "Gen"; SLeaf "Command" (cmd "lint") "sub"; SLeaf "Command" (cmd "prep") "sub";
   SAll [3]; SSeq [4; 2]; SLeaf "Command" (cmd "use") ""; SFiles 6 ["/p/mid"] ["/p/out"] false; SSeq [1; 5; 7];
   SLeaf "Command" (cmd "gen") ""; SFiles 9 ["/p/in"] ["/p/mid"] false; SRef "Gen"; SRef "Nowhere"; SAll [11; 12]].
Proof. vm_compute. reflexivity. Qed.
Lemma expands_self reg objs : expands no_rules reg objs objs.
Proof.
  split; [done|]. split; [done|]. split; [|split].
  - intros o t n d H. left. done.
  - intros o sh Hle H. apply lookup_lt_Some in H. lia.
  - intros o1 o2 t (Hle & tag & n & d & H). apply lookup_lt_Some in H. lia.
Qed.
Example expands_case n :
  expands (fun t n d => if decide (t = "go.Binary") then Some (["/p/main.go"], ["/p/bin"]) else None) {[ "A" := 2 ]}
    [SRef "x"; SLeaf "go.Binary" n ""; SLeaf "Command" n ""]
    [SRef "x"; SFiles 3 ["/p/main.go"] ["/p/bin"] false; SSeq [4; 5]; SLeaf "Command" n ""; SLeaf "Command" n ""; SLeaf "Command" n "";
     SArgs 2 ["-x"]].
Proof.
  split; [simpl; lia|]. split; [|split; [|split]].
  - intros [|[|[|o]]] sh H Hn; simpl in H; simplify_eq; try done; exfalso; by eapply Hn.
  - intros [|[|[|o]]] t nd d H; simpl in H; simplify_eq.
    + right. right. exists 3, ["/p/main.go"], ["/p/bin"], false. simpl. split; [done|]. split; [done|]. split; [lia|by eexists _, _, _].
    + right. left. exists [4; 5]. split; [done|]. split; [done|]. split; [|by apply (bool_decide_unpack _)].
      repeat constructor; simpl; try lia; by eexists _, _, _.
  - intros o sh Hle H. simpl in Hle. destruct o as [|[|[|[|[|[|[|o]]]]]]]; try lia; simpl in H; simplify_eq; first [left; by eexists _, _, _|right; by exists "A", 2, ["-x"]].
  - intros o1 o2 t [Hle _] H1 H2. simpl in Hle. unfold children in *.
    destruct o1 as [|[|[|[|[|[|[|o1]]]]]]]; simpl in H1; rewrite ?elem_of_cons, ?elem_of_nil in H1;
    destruct o2 as [|[|[|[|[|[|[|o2]]]]]]]; simpl in H2; rewrite ?elem_of_cons, ?elem_of_nil in H2; lia.
Qed.
Lemma pinj o1 o2 : 100 + o1 = 100 + o2 -> o1 = o2.
Proof. lia. Qed.
Lemma pdefines dir q k v : defines "/p" pdocs dir q k v ->
  (dir = "" /\ ((q = "zero" /\ v = cmd "true") \/ (q = "Main" /\ v = n_main) \/ (q = "Gen" /\ v = n_gen) \/ (q = "Bad" /\ v = n_bad))) \/
  (dir = "sub" /\ q = "sub/Lint" /\ v = n_lint).
Proof.
  intros (D & doc & ps & Hd & Hdir & Hps & Hin & Hkey & ->). unfold pdocs in Hd. unfold file_dir in Hdir.
  destruct (decide (Join ["/p"; D] = "/p")) as [E|E].
  - rewrite E in Hdir. vm_compute in Hdir. injection Hdir as <-. injection Hd as <-. left. split; [done|].
    assert (ps = main_entries) as -> by (eapply YamlProofs2.has_entries_fun; [done|by eexists]).
    repeat (apply elem_of_cons in Hin as [[= -> ->]|Hin]); [..|by apply elem_of_nil in Hin]; vm_compute; tauto.
  - destruct (decide (Join ["/p"; D] = "/p/sub")) as [E'|]; [|done].
    rewrite E' in Hdir. vm_compute in Hdir. injection Hdir as <-. injection Hd as <-. right. split; [done|].
    assert (ps = sub_entries) as -> by (eapply YamlProofs2.has_entries_fun; [done|by eexists]).
    repeat (apply elem_of_cons in Hin as [[= -> ->]|Hin]); [..|by apply elem_of_nil in Hin].
    + by destruct Hkey as (_ & ? & _).
    + done.
Qed.
Lemma ponce : defined_once "/p" pdocs.
Proof.
  intros q d1 k1 v1 d2 k2 v2 H1 H2. apply pdefines in H1, H2. naive_solver.
Qed.

Lemma pexecutes w tr l : trace w tr ->
  (forall n x, EvRegister n x ∈ tr <-> (n, x) ∈ [("zero", 0); ("Main", 8); ("Gen", 10); ("Bad", 13); ("sub/Lint", 5)]) ->
  tr = [EvRegister "zero" 0; EvRegister "Main" 8; EvRegister "Gen" 10; EvRegister "Bad" 13; EvRegister "sub/Lint" 5] ++ l ->
  (forall n x, EvRegister n x ∉ l) ->
  executes w (snd <$> y_reg proj) tr.
Proof.
  intros Htr Hr E Hl. split; [exact Htr|]. split.
  - intros i j c p cx ts name x Hi Hj. rewrite E in Hi, Hj.
    destruct (decide (j < 5)) as [Hj5|Hj5].
    + destruct (decide (i < 5)) as [Hi5|]; [|lia]. exfalso.
      do 5 (destruct i as [|i]; [discriminate|]). lia.
    + rewrite lookup_app_r in Hj by (simpl; lia). exfalso. apply elem_of_list_lookup_2 in Hj. by apply Hl in Hj.
  - intros n x. rewrite Hr. rewrite lookup_fmap, fmap_Some. split.
    + intros Hin. repeat (apply elem_of_cons in Hin as [[= -> ->]|Hin]; [match goal with |- context [?y = snd _] => exists ("", y) end; split; [vm_compute; reflexivity|reflexivity]|]). apply elem_of_nil in Hin. destruct Hin.
    + intros ([doc x'] & Hq & ->). simpl. apply elem_of_map_to_list in Hq.
      match type of Hq with _ ∈ ?l => let v := eval vm_compute in l in change l with v in Hq end.
      repeat (apply elem_of_cons in Hq as [[= -> <- <-]|Hq]; [rewrite !elem_of_cons; tauto|]). apply elem_of_nil in Hq. destruct Hq.
Qed.
Definition is_reg (ev : event) : bool := match ev with EvRegister _ _ => true | _ => false end.
Lemma no_reg l : forallb (fun ev => negb (is_reg ev)) l = true -> forall n x, EvRegister n x ∉ l.
Proof. intros H n x Hin. rewrite forallb_forall in H. apply elem_of_list_In, H in Hin. done. Qed.
Lemma regs_of (l : list event) : (forall n x, EvRegister n x ∉ l) -> forall n x,
  EvRegister n x ∈ [EvRegister "zero" 0; EvRegister "Main" 8; EvRegister "Gen" 10; EvRegister "Bad" 13; EvRegister "sub/Lint" 5] ++ l <->
  (n, x) ∈ [("zero", 0); ("Main", 8); ("Gen", 10); ("Bad", 13); ("sub/Lint", 5)].
Proof.
  intros Hl n x. rewrite elem_of_app, !elem_of_cons, !elem_of_nil. split.
  - intros [H|H]; [|by apply Hl in H]. naive_solver.
  - naive_solver.
Qed.
Lemma pexec leafp o l : plog leafp o = [EvRegister "zero" 0; EvRegister "Main" 8; EvRegister "Gen" 10; EvRegister "Bad" 13; EvRegister "sub/Lint" 5] ++ l ->
  forallb (fun ev => negb (is_reg ev)) l = true -> executes (pworld leafp) (snd <$> y_reg proj) (plog leafp o).
Proof.
  intros E H. pose proof (no_reg l H) as H'. eapply (pexecutes _ _ l); [apply client_trace| |exact E|exact H'].
  rewrite E. apply regs_of. exact H'.
Qed.
Definition plog_tail leafp o : list event := drop 5 (plog leafp o).
Lemma main_executes : executes (pworld ok_leaf) (snd <$> y_reg proj) (plog ok_leaf 8).
Proof. apply (pexec _ _ (plog_tail ok_leaf 8)); vm_compute; reflexivity. Qed.
Lemma bad_executes : executes (pworld bad_leaf) (snd <$> y_reg proj) (plog bad_leaf 8).
Proof. apply (pexec _ _ (plog_tail bad_leaf 8)); vm_compute; reflexivity. Qed.
Lemma nowhere_executes : executes (pworld ok_leaf) (snd <$> y_reg proj) (plog ok_leaf 13).
Proof. apply (pexec _ _ (plog_tail ok_leaf 13)); vm_compute; reflexivity. Qed.

(** Running Main: it returns nil, and Gen and what makes the input are required. *)
Example C72_case :
  (exists l1 l2, plog ok_leaf 8 = l1 ++ EvRet 0 None None :: l2 /\ EvCall 0 None Background [TPtr 8] ∈ l1) /\
  y_reg proj !! "Main" = Some ("", 8) /\
  (forall d m, (d = "" /\ (m = n_gen \/ m = rule_node (cmd "use") "mid" "out")) \/ (d = "sub" /\ m = cmd "prep") ->
    required "/p" fns0 pdocs no_rules false (fun q => is_Some (y_reg proj !! q)) "" n_main d m).
Proof.
  split; [|split; [vm_compute; reflexivity|]].
  - exists (take (length (plog ok_leaf 8) - 1) (plog ok_leaf 8)), []. split; [vm_compute; reflexivity|]. in_log.
  - assert (Hseq : has_tag n_main "Seq") by (split; [done|split; [intros [? [=]]|by right]]).
    assert (Hnf : ~ has_tag n_main "Files") by (intros H; by pose proof (YamlProofs.has_tag_fun _ _ _ Hseq H)).
    assert (Hpart : forall c, c ∈ [sc "Gen"; sc "sub/Lint"; rule_node (cmd "use") "mid" "out"] -> part n_main c)
      by (intros c Hc; eapply part_list; [exact Hseq|auto|done|done]).
    intros d m [[-> [-> | ->]]|[-> ->]].
    + eapply req_part; [apply Hpart; by left|by right|].
      eapply (req_name _ _ _ _ _ _ _ _ "Gen" "" (sc "Gen") n_gen); [|exists "", (document main_entries), main_entries|constructor].
      * split; [right; right; by eexists|]. split; [done|vm_compute; reflexivity].
      * split_and!; [vm_compute; reflexivity|vm_compute; reflexivity|by eexists| | | ].
        { do 2 right. by left. }
        { done. }
        { vm_compute. reflexivity. }
    + eapply req_part; [apply Hpart; do 2 right; by left|by right|]. constructor.
    + eapply req_part; [apply Hpart; right; by left|by right|].
      eapply (req_name _ _ _ _ _ _ _ _ "sub/Lint" "sub" (sc "Lint") n_lint); [|exists "sub", (document sub_entries), sub_entries|].
      * split; [right; right; by eexists|]. split; [done|vm_compute; reflexivity].
      * split_and!; [vm_compute; reflexivity|vm_compute; reflexivity|by eexists| | | ].
        { right. by left. }
        { done. }
        { vm_compute. reflexivity. }
      * eapply req_part; [|right; intros H|constructor].
        { eapply part_list; [|auto|done|]. { split; [done|split; [intros [? [=]]|by right]]. } right. by left. }
        { assert (Hd : has_tag n_lint "Deps") by (split; [done|split; [intros [? [=]]|by right]]). by pose proof (YamlProofs.has_tag_fun _ _ _ Hd H). }
Qed.
Lemma pclients leafp o q d : y_reg proj !! q = Some (d, o) ->
  forallb (fun ev => match ev with EvCall _ None _ [TPtr o'] => bool_decide (o' = o) | EvCall _ None _ _ => false | _ => true end) (plog leafp o) = true ->
  clients_ask_registered proj (y_objs proj) (plog leafp o).
Proof.
  intros Hq H. rewrite forallb_forall in H. intros c cx ts t Hin Ht. apply elem_of_list_In, H in Hin.
  destruct ts as [|[o'|] [|]]; try discriminate Hin. apply bool_decide_eq_true in Hin as ->. apply elem_of_list_singleton in Ht as ->. exists q, d, o. split; [left; reflexivity|exact Hq].
Qed.
(** Two executions with a failing command and with a name that is not defined. *)
Example C73_case :
  clients_ask_registered proj (y_objs proj) (plog bad_leaf 8) /\ EvCall 0 None Background [TPtr 8] ∈ plog bad_leaf 8 /\
  (exists e, EvRet 0 None (Some e) ∈ plog bad_leaf 8) /\
  clients_ask_registered proj (y_objs proj) (plog ok_leaf 13) /\ EvCall 0 None Background [TPtr 13] ∈ plog ok_leaf 13 /\
  (exists e, EvRet 0 None (Some e) ∈ plog ok_leaf 13).
Proof.
  split; [apply (pclients _ _ "Main" ""); vm_compute; reflexivity|]. split; [in_log|]. split.
  { let l := eval vm_compute in (plog bad_leaf 8) in change (plog bad_leaf 8) with l.
    eexists. apply elem_of_list_In. repeat (first [left; reflexivity | right]). }
  split; [apply (pclients _ _ "Bad" ""); vm_compute; reflexivity|]. split; [in_log|].
  let l := eval vm_compute in (plog ok_leaf 13) in change (plog ok_leaf 13) with l.
  eexists. apply elem_of_list_In. repeat (first [left; reflexivity | right]).
Qed.
(** With Main, nothing runs for the definition of Bad.  (Gen, target 10, runs twice, once through
    its name and once as the rule that makes mid: C01.) *)
Example C74_case :
  clients_ask_registered proj (y_objs proj) (plog ok_leaf 8) /\
  omap (fun ev => match ev with EvStart _ _ o _ => Some o | _ => None end) (plog ok_leaf 8) = [8; 10; 9; 5; 4; 3; 2; 7; 10; 6].
Proof.
  split; [apply (pclients _ _ "Main" ""); vm_compute; reflexivity|]. vm_compute. reflexivity.
Qed.

(** No definition of the project uses itself. *)
Definition prank (q : string) : nat := if decide (q = "Main" \/ q = "Bad") then 1 else 0.
Lemma iter_dir_in k : Nat.iter k Dir "/p/in" ∈ ["/p/in"; "/p"; "/"].
Proof.
  induction k as [|k IH]; [by left|]. change (Dir (Nat.iter k Dir "/p/in") ∈ ["/p/in"; "/p"; "/"]).
  revert IH. generalize (Nat.iter k Dir "/p/in"). intros y IH.
  repeat (apply elem_of_cons in IH as [->|IH]; [apply elem_of_list_In; vm_compute; tauto|]). by apply elem_of_nil in IH.
Qed.
Lemma iter_dir_mid k : Nat.iter k Dir "/p/mid" ∈ ["/p/mid"; "/p"; "/"].
Proof.
  induction k as [|k IH]; [by left|]. change (Dir (Nat.iter k Dir "/p/mid") ∈ ["/p/mid"; "/p"; "/"]).
  revert IH. generalize (Nat.iter k Dir "/p/mid"). intros y IH.
  repeat (apply elem_of_cons in IH as [->|IH]; [apply elem_of_list_In; vm_compute; tauto|]). by apply elem_of_nil in IH.
Qed.
Lemma inside_inv n m : inside n m -> m = n \/ exists c, c ∈ YamlProofs2.tparts n /\ inside c m.
Proof. destruct 1 as [|n c m Hp H]; [by left|right]. exists c. split; [by apply YamlProofs2.part_tparts|done]. Qed.
Ltac insides H :=
  apply inside_inv in H as [->|(? & ?Hc & H)];
  [|match goal with Hc : _ ∈ YamlProofs2.tparts ?n |- _ =>
     let l := eval vm_compute in (YamlProofs2.tparts n) in change (YamlProofs2.tparts n) with l in Hc;
     repeat (apply elem_of_cons in Hc as [->|Hc]; [insides H|]);
     try (by apply elem_of_nil in Hc)
   end].
Lemma node_of m dir q k v : defines "/p" pdocs dir q k v -> inside v m ->
  (dir = "" /\ q = "Main" /\ (m = n_main \/ m = sc "Gen" \/ m = sc "sub/Lint" \/ m = rule_node (cmd "use") "mid" "out")) \/
  (dir = "" /\ q = "Gen" /\ m = n_gen) \/ (dir = "" /\ q = "Bad" /\ (m = n_bad \/ m = sc "Gen" \/ m = sc "Nowhere")) \/
  exists x, m = cmd x \/ m = n_lint.
Proof.
  intros Hd Hin. apply pdefines in Hd as [[-> [[-> ->]|[[-> ->]|[[-> ->]|[-> ->]]]]]|[-> [-> ->]]]; insides Hin;
    first [right; right; right; first [exists ""; right; reflexivity | eexists; left; reflexivity]
          | left; split; [reflexivity|]; split; [reflexivity|]; first [left; reflexivity | right; left; reflexivity | right; right; left; reflexivity | right; right; right; reflexivity]
          | right; left; split; [reflexivity|]; split; reflexivity
          | right; right; left; split; [reflexivity|]; split; [reflexivity|]; first [left; reflexivity | right; left; reflexivity | right; right; reflexivity]].
Qed.
Lemma cmd_no_rule dir x ins outs : ~ rule "/p" fns0 no_rules dir (cmd x) ins outs.
Proof.
  intros [(fs & Ht & _)|(t & _ & _ & H)]; [|discriminate H].
  destruct Ht as (_ & _ & [H|H]); discriminate H.
Qed.
Lemma prule dir m ins outs : rule "/p" fns0 no_rules dir m ins outs ->
  exists fs, has_tag m "Files" /\ decode_struct m = Some fs /\
    YAMLFileList fns0 "/p" (field "In" fs) dir = LOk ins /\ YAMLFileList fns0 "/p" (field "Out" fs) dir = LOk outs.
Proof. intros [H|(t & _ & _ & H)]; [done|discriminate H]. Qed.
Lemma pranked q dir k v m : defines "/p" pdocs dir q k v -> inside v m ->
  (forall q' dir' k' v', reference "/p" dir m q' -> defines "/p" pdocs dir' q' k' v' -> prank q' < prank q) /\
  (forall ins outs q' dir' n' ins' outs', rule "/p" fns0 no_rules dir m ins outs -> written "/p" pdocs q' dir' n' ->
     rule "/p" fns0 no_rules dir' n' ins' outs' -> makes outs' ins -> prank q' < prank q).
Proof.
  intros Hd Hin. split.
  - intros q' dir' k' v' (Hu & Hk & Href) Hd'.
    destruct (node_of _ _ _ _ _ Hd Hin) as [(-> & -> & [->|[->|[->| ->]]])|[(-> & -> & ->)|[(-> & -> & [->|[->| ->]])|(x & [->| ->])]]];
      try discriminate Hk; vm_compute in Href; injection Href as <-; vm_compute; lia.
  - intros ins outs q' dir' n' ins' outs' Hr (k' & v' & Hd' & Hin') Hr' (i & o & j & Hi & Ho & ->).
    apply prule in Hr as (fs & Ht & Hf & Hins & _), Hr' as (fs' & Ht' & Hf' & _ & Houts').
    assert (Hc : forall x, ~ has_tag (cmd x) "Files") by (intros x (_ & _ & [H|H]); discriminate H).
    assert (Hs : forall x, ~ has_tag (sc x) "Files") by (intros x (_ & _ & [H|H]); discriminate H).
    assert (Hl : ~ has_tag n_lint "Files") by (intros (_ & _ & [H|H]); discriminate H).
    assert (Hm : ~ has_tag n_main "Files") by (intros (_ & _ & [H|H]); discriminate H).
    assert (Hb : ~ has_tag n_bad "Files") by (intros (_ & _ & [H|H]); discriminate H).
    destruct (node_of _ _ _ _ _ Hd Hin) as [(-> & -> & [->|[->|[->| ->]]])|[(-> & -> & ->)|[(-> & -> & [->|[->| ->]])|(x & [->| ->])]]];
      try (exfalso; first [exact (Hs _ Ht) | exact (Hc _ Ht) | exact (Hl Ht) | exact (Hm Ht) | exact (Hb Ht)]); vm_compute in Hf; injection Hf as <-; vm_compute in Hins; injection Hins as <-;
      apply elem_of_list_singleton in Hi as ->;
    destruct (node_of _ _ _ _ _ Hd' Hin') as [(-> & -> & [->|[->|[->| ->]]])|[(-> & -> & ->)|[(-> & -> & [->|[->| ->]])|(x & [->| ->])]]];
      try (exfalso; first [exact (Hs _ Ht') | exact (Hc _ Ht') | exact (Hl Ht') | exact (Hm Ht') | exact (Hb Ht')]); vm_compute in Hf'; injection Hf' as <-; vm_compute in Houts'; injection Houts' as <-;
      apply elem_of_list_singleton in Ho.
    + pose proof (iter_dir_mid j) as H. rewrite Ho in H. exfalso. apply elem_of_list_In in H. simpl in H. clear -H. naive_solver.
    + vm_compute. lia.
    + pose proof (iter_dir_in j) as H. rewrite Ho in H. exfalso. apply elem_of_list_In in H. simpl in H. clear -H. naive_solver.
    + pose proof (iter_dir_in j) as H. rewrite Ho in H. exfalso. apply elem_of_list_In in H. simpl in H. clear -H. naive_solver.
Qed.

Definition pstart : list choice := pregs ++ [ChRun Background [TPtr 8]].
Definition pstate : state := default init (run (pworld ok_leaf) init pstart).
Example C76_case :
  inevitable (pworld ok_leaf) (fun st => all_returned (s_log st)) pstate /\ ~ all_returned (s_log pstate).
Proof.
  split.
  - apply (C76_ranked_returns "/p" fns0 leaf0 ybool0 pdocs ne0 proj no_rules (y_objs proj) (fun o => 100 + o) ok_leaf pstart pstate prank);
      [exact proj_loads|apply expands_self|exact pinj|intros o cx ts; exact (ChainProofs2.may_ret _ _)|intros; constructor|vm_compute; reflexivity| |exact pranked].
    intros n o Hin. apply elem_of_list_In in Hin. compute_log Hin. simpl in Hin.
    apply lookup_fmap_Some. repeat (destruct Hin as [Hin|Hin]; [first [discriminate Hin | exists ("", o); injection Hin as <- <-; split; [reflexivity|vm_compute; reflexivity]]|]). destruct Hin.
  - intros H. destruct (H 0 None Background [TPtr 8]) as [e He]; [in_log|].
    apply elem_of_list_In in He. compute_log He. simpl in He. repeat (destruct He as [He|He]; [discriminate He|]). destruct He.
Qed.

(** A project with a definition that uses itself; a call for it never returns, but a call for
    another target does. *)
Definition loop_entries : list (node * node) := [ (sc "zero", cmd "true"); (sc "Loop", sq "!All" [sc "Loop"]) ].
Definition ldocs (f : string) : option node := if decide (f = "/p") then Some (document loop_entries) else None.
Definition lproj : ystate :=
  match ReadYAMLFile "/p" ldocs ne0 (YAMLTarget "/p" fns0 leaf0 ybool0 ldocs ne0 20) "" s_empty with ROk s _ => s | _ => s_empty end.
Definition lworld : world := project_world (fun o => 100 + o) (y_objs lproj) ok_leaf.
Definition lstart : list choice := [ChRegister "zero" 0; ChRegister "Loop" 2; ChRun Background [TPtr 2]; ChRun Background [TPtr 0]].
Definition lsched : list choice := lstart ++ greedy_sched 200 lworld (default init (run lworld init lstart)).
Definition lreg (ch : choice) : Prop :=
  match ch with ChRegister n o => (n = "zero" /\ o = 0) \/ (n = "Loop" /\ o = 2) | _ => True end.
Lemma run_lregs w chs : forall s s', run w s chs = Some s' -> Forall lreg chs ->
  (forall name o, EvRegister name o ∈ s_log s -> (name = "zero" /\ o = 0) \/ (name = "Loop" /\ o = 2)) ->
  forall name o, EvRegister name o ∈ s_log s' -> (name = "zero" /\ o = 0) \/ (name = "Loop" /\ o = 2).
Proof.
  induction chs as [|ch chs IH]; intros s s' H Hf Hs; simpl in H; [by simplify_eq|].
  destruct (step w s ch) as [s1|] eqn:Es; [|done]. simpl in H. inversion Hf; subst.
  eapply IH; [exact H|done|]. intros name o Hin. apply RunnerSteps.step_tstep in Es.
  destruct Es; RunnerInv.proj; try (by eapply Hs);
    (apply RunnerInv4.elem_of_snoc in Hin as [Hin|Hin]; [by eapply Hs|]); by simplify_eq.
Qed.
Lemma lsched_regs : Forall lreg lsched.
Proof.
  assert (Hb : forallb (fun ch => match ch with ChRegister n o => (bool_decide (n = "zero") && bool_decide (o = 0)) || (bool_decide (n = "Loop") && bool_decide (o = 2)) | _ => true end) lsched = true)
    by (vm_compute; reflexivity).
  revert Hb. generalize lsched. intros l Hb.
  apply Forall_forall. intros ch Hin. rewrite forallb_forall in Hb.
  apply elem_of_list_In, Hb in Hin. destruct ch; try done.
  apply orb_prop in Hin as [Hin|Hin]; apply andb_prop in Hin as [H1 H2]; apply bool_decide_eq_true in H1, H2; [by left|by right].
Qed.
Lemma lloads : loads "/p" fns0 leaf0 ybool0 ldocs ne0 lproj.
Proof. exists 20. left. vm_compute. reflexivity. Qed.
Lemma ldefines dir q k v : defines "/p" ldocs dir q k v -> dir = "" /\ ((q = "zero" /\ v = cmd "true") \/ (q = "Loop" /\ v = sq "!All" [sc "Loop"])).
Proof.
  intros (D & doc & ps & Hd & Hdir & Hps & Hin & Hkey & ->). unfold ldocs in Hd. unfold file_dir in Hdir.
  destruct (decide (Join ["/p"; D] = "/p")) as [E|E]; [|done].
  rewrite E in Hdir. vm_compute in Hdir. injection Hdir as <-. injection Hd as <-. split; [done|].
  assert (ps = loop_entries) as -> by (eapply YamlProofs2.has_entries_fun; [done|by eexists]).
  repeat (apply elem_of_cons in Hin as [[= -> ->]|Hin]); [..|by apply elem_of_nil in Hin]; vm_compute; tauto.
Qed.
Lemma lonce : defined_once "/p" ldocs.
Proof. intros q d1 k1 v1 d2 k2 v2 H1 H2. apply ldefines in H1, H2. naive_solver. Qed.
Lemma lzero_defined : defines "/p" ldocs "" "zero" (sc "zero") (cmd "true").
Proof.
  exists "", (document loop_entries), loop_entries. split; [vm_compute; reflexivity|]. split; [vm_compute; reflexivity|].
  split; [by eexists|]. split; [by left|]. split; [done|]. vm_compute. reflexivity.
Qed.
Lemma lzero_acc : Acc (fun b a : string * node => uses "/p" fns0 ldocs no_rules a.1 a.2 b.1 b.2) ("", cmd "true").
Proof.
  constructor. intros [d m] H. simpl in H. inversion H as [? ? ? Hp|? ? ? ? ? ? (_ & Hk & _)|? ? ? ? ? ? ? ? ? Hr]; subst.
  - apply YamlProofs2.part_tparts in Hp. vm_compute in Hp. by apply elem_of_nil in Hp.
  - discriminate Hk.
  - by apply cmd_no_rule in Hr.
Qed.
Example C76_elsewhere_case : exists h chs,
  execution lworld h chs /\ fair lworld h chs /\
  (forall n m o, EvRegister m o ∈ s_log (h n) -> (snd <$> y_reg lproj) !! m = Some o) /\
  EvCall 0 None Background [TPtr 2] ∈ s_log (h 4) /\ EvCall 1 None Background [TPtr 0] ∈ s_log (h 4) /\
  (forall e, EvRet 1 None e ∉ s_log (h 4)) /\ (forall e, EvRet 0 None e ∉ s_log (h 200)) /\
  (exists m e, 4 <= m /\ EvRet 1 None e ∈ s_log (h m)).
Proof.
  assert (Hq : exists s, run lworld init lsched = Some s /\ quiet s).
  { eexists. split; [vm_compute; reflexivity|]. split; repeat constructor; done. }
  destruct Hq as (s & Hr & Hq).
  destruct (then_idle_execution lworld lsched s Hr Hq) as [He Hf].
  exists (then_idle_s lworld lsched), (then_idle_c lsched). split; [exact He|]. split; [exact Hf|]. clear Hr Hq s.
  assert (Hreg : forall n m o, EvRegister m o ∈ s_log (then_idle_s lworld lsched n) -> (snd <$> y_reg lproj) !! m = Some o).
  { intros n m o Hin.
    assert (Hch' : Forall lreg (take n lsched ++ replicate (n - length lsched) idle)).
    { apply Forall_app. split; [apply Forall_take, lsched_regs|]. apply Forall_replicate. left. split; reflexivity. }
    unfold then_idle_s in Hin. destruct (run lworld init (take n lsched ++ replicate (n - length lsched) idle)) as [s'|] eqn:E; cbn [default] in Hin.
    - assert (H : (m = "zero" /\ o = 0) \/ (m = "Loop" /\ o = 2)).
      { eapply run_lregs; [exact E|exact Hch'| |exact Hin]. intros name o' Hin'. apply elem_of_nil in Hin'. destruct Hin'. }
      apply lookup_fmap_Some. exists ("", o). split; [reflexivity|]. destruct H as [[-> ->]|[-> ->]]; vm_compute; reflexivity.
    - apply elem_of_nil in Hin. destruct Hin. }
  split; [exact Hreg|].
  assert (Hc : EvCall 1 None Background [TPtr 0] ∈ s_log (then_idle_s lworld lsched 4)) by in_log.
  split; [in_log|]. split; [exact Hc|]. split; [|split].
  - intros e Hin. apply elem_of_list_In in Hin. compute_log Hin. simpl in Hin. repeat (destruct Hin as [Hin|Hin]; [discriminate Hin|]). destruct Hin.
  - intros e Hin. apply elem_of_list_In in Hin. compute_log Hin. simpl in Hin. repeat (destruct Hin as [Hin|Hin]; [discriminate Hin|]). destruct Hin.
  - eapply (C76_cycle_elsewhere_returns "/p" fns0 leaf0 ybool0 ldocs ne0 lproj no_rules (y_objs lproj) (fun o => 100 + o) ok_leaf);
      [exact lloads|apply expands_self|exact pinj|intros o cx ts; exact (ChainProofs2.may_ret _ _)|intros; constructor|exact lonce|exact He|exact Hf|exact Hreg|exact Hc|].
    intros t Ht. apply elem_of_list_singleton in Ht as ->. exists "zero", "", 0, "", (sc "zero"), (cmd "true").
    split; [left; reflexivity|]. split; [vm_compute; reflexivity|]. split; [exact lzero_defined|exact lzero_acc].
Qed.
