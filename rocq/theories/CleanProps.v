(** C52, C53: the Clean target (clean.go).  Vocabulary: CleanSpec.v.
    [loc], [parent], [stuck] describe an arbitrary file system; several names may lead to one
    location; [reg] is the autoclean registry in an arbitrary order; [h] an arbitrary heap. *)
From stdpp Require Import base gmap fin_sets list strings sorting.
From Verif Require Import StrOrd CleanModel CleanSpec CleanProofs.
Local Open Scope list_scope.

(** Nil: the listed files are gone, everything else is as before. *)
Theorem C52_nil_removes_listed loc parent stuck h files ac reg extra fs h' fs' :
  slice_ok h files ->
  Run loc parent stuck h files ac false reg extra fs = (h', fs', None) ->
  (forall f, f ∈ contents h files \/ (ac = true /\ f ∈ reg) -> fs' !! loc f = None) /\
  (forall l, (forall f, f ∈ contents h files \/ (ac = true /\ f ∈ reg) -> loc f <> l) -> fs' !! l = fs !! l).
Proof.
  intros Hok H. apply run_unfold in H; [|done]. symmetry in H. apply loop_spec in H. simpl in H.
  assert (Hin : forall f, f ∈ ssort (listed h files ac reg) <-> f ∈ contents h files \/ (ac = true /\ f ∈ reg)).
  { intros f. rewrite ssort_elem. unfold listed. rewrite elem_of_app. destruct ac; rewrite ?elem_of_nil; naive_solver. }
  split.
  - intros f Hf. rewrite H, decide_True; [done|]. apply elem_of_list_fmap. exists f. split; [done|by apply Hin].
  - intros l Hl. rewrite H, decide_False; [done|]. intros (f & -> & Hf)%elem_of_list_fmap. by apply (Hl f); [apply Hin|].
Qed.
Print Assumptions C52_nil_removes_listed.

(** An error: it names a listed file that exists and cannot be removed; what precedes it in
    sorted order is gone, everything else is as before. *)
Theorem C52_error_names_file loc parent stuck h files ac reg extra fs h' fs' f :
  slice_ok h files ->
  Run loc parent stuck h files ac false reg extra fs = (h', fs', Some f) ->
  exists before after,
    before ++ f :: after ≡ₚ contents h files ++ (if ac then reg else []) /\
    StronglySorted sle (before ++ f :: after) /\
    (forall l, fs' !! l = if decide (l ∈ map loc before) then None else fs !! l) /\
    is_Some (fs' !! loc f) /\
    (stuck (loc f) = true \/ fs' !! loc f = Some Dir /\ exists c, is_Some (fs' !! c) /\ parent c = Some (loc f)).
Proof.
  intros Hok H. apply run_unfold in H; [|done]. symmetry in H. apply loop_spec in H as (b & a & E & Hw & Hr).
  exists b, a. rewrite <-E. split; [apply ssort_perm|]. split; [apply ssort_sorted|]. split; [done|]. by apply remove_err.
Qed.
Print Assumptions C52_error_names_file.

(** Files that do not exist, however many, never cause an error: it succeeds if each listed
    file that exists is a plain file or an empty directory and not stuck. *)
Theorem C52_missing_ignored loc parent stuck h files ac reg extra fs h' fs' e :
  slice_ok h files ->
  (forall f, f ∈ contents h files \/ (ac = true /\ f ∈ reg) -> is_Some (fs !! loc f) ->
    stuck (loc f) = false /\ (fs !! loc f = Some Dir -> forall c, is_Some (fs !! c) -> parent c <> Some (loc f))) ->
  Run loc parent stuck h files ac false reg extra fs = (h', fs', e) -> e = None.
Proof.
  intros Hok Hgood H. destruct e as [f|]; [|done]. exfalso.
  apply C52_error_names_file in H as (b & a & Hp & _ & Hfs & Hex & Hc); [|done].
  assert (Hin : f ∈ contents h files \/ (ac = true /\ f ∈ reg)).
  { assert (Hf : f ∈ contents h files ++ (if ac then reg else [])) by (rewrite <-Hp; apply elem_of_app; right; left).
    apply elem_of_app in Hf as [?|Hf]; [by left|]. destruct ac; [by right|by apply elem_of_nil in Hf]. }
  assert (Hsub : forall l, is_Some (fs' !! l) -> fs' !! l = fs !! l).
  { intros l. rewrite Hfs. destruct (decide _); [by intros [? ?]|done]. }
  pose proof (Hsub _ Hex) as Eq. rewrite Eq in Hex, Hc. destruct (Hgood f Hin Hex) as [Hs Hd].
  destruct Hc as [?|(HD & c & Hce & Hcp)]; [congruence|]. apply (Hd HD c); [|done]. by rewrite <-(Hsub c Hce).
Qed.
Print Assumptions C52_missing_ignored.

(** Dry run. *)
Theorem C52_dry_run_removes_nothing loc parent stuck h files ac reg extra fs h' fs' e :
  slice_ok h files -> Run loc parent stuck h files ac true reg extra fs = (h', fs', e) -> fs' = fs /\ e = None.
Proof. intros Hok H. apply run_unfold in H; [|done]. by injection H as -> ->. Qed.
Print Assumptions C52_dry_run_removes_nothing.

(** The registry has the outputs of the Files targets made with Autoclean(true), no others. *)
Theorem C52_registry (targets : list (bool * list string)) f :
  f ∈ fold_left (fun reg t => Autoclean t.1 t.2 reg) targets ∅ <-> exists out, (true, out) ∈ targets /\ f ∈ out.
Proof.
  assert (H : forall reg, f ∈ fold_left (fun reg t => Autoclean t.1 t.2 reg) targets reg <->
    f ∈ reg \/ exists out, (true, out) ∈ targets /\ f ∈ out).
  { induction targets as [|[b out] ts IH]; intros reg; simpl.
    - split; [auto|]. intros [?|(? & H & _)]; [done|by apply elem_of_nil in H].
    - rewrite IH. unfold Autoclean. destruct b; rewrite ?elem_of_union, ?elem_of_list_to_set; split.
      + intros [[?|?]|(o & ? & ?)]; [by left|right; exists out; split; [by left|done]|right; exists o; split; [by right|done]].
      + intros [?|(o & [[= ->]|?]%elem_of_cons & ?)]; [auto..|]. right. eauto.
      + intros [?|(o & ? & ?)]; [by left|right; exists o; split; [by right|done]].
      + intros [?|(o & [[=]|?]%elem_of_cons & ?)]; [auto|]. right. eauto. }
  rewrite H. split; [intros [?%elem_of_empty|?]; done|auto].
Qed.
Print Assumptions C52_registry.

(** ** Examples.  Locations 1 = a, 2 = b, 3 = d, 4 = d/x; the names a and ./a are the same. *)
Definition loc_ex (f : string) : nat :=
  if decide (f = "a" \/ f = "./a") then 1 else if decide (f = "b") then 2 else if decide (f = "d") then 3
  else if decide (f = "d/x") then 4 else 9.
Definition parent_ex (l : nat) : option nat := match l with 4 => Some 3 | _ => None end.
Definition fs_ex : gmap nat entry := {[1 := File; 2 := File; 3 := Dir; 4 := File]}.
Definition heap_of (l : list string) : gmap nat (list string) := {[0 := l]}.
Definition whole (n : nat) : slice := {| s_arr := 0; s_off := 0; s_len := n; s_cap := n |}.
Example clean_ex : (Run loc_ex parent_ex (fun _ => false) (heap_of ["gone"; "a"; "./a"]) (whole 3) true false ["d/x"] [] fs_ex).1.2
  = delete 1 (delete 4 fs_ex) /\ (Run loc_ex parent_ex (fun _ => false) (heap_of ["gone"; "a"; "./a"]) (whole 3) true false ["d/x"] [] fs_ex).2 = None.
Proof. split; [apply map_eq; intros l; do 10 (destruct l as [|l]; [reflexivity|]); vm_compute; reflexivity|vm_compute; reflexivity]. Qed.

(** ** Refuted: directories.  The documentation of Files promises that the entire tree of an
    output directory is deleted with Autoclean; a directory that is not empty is an error, even
    if everything in it is listed too (it sorts before its contents). *)
Theorem C52_directory_trees_refuted :
  exists loc parent stuck h files fs,
    slice_ok h files /\ (forall l, stuck l = false) /\
    (exists d, d ∈ contents h files /\ fs !! loc d = Some Dir /\
      (forall c, is_Some (fs !! c) -> parent c = Some (loc d) -> exists f, f ∈ contents h files /\ loc f = c)) /\
    exists h' fs' f, Run loc parent stuck h files false false [] [] fs = (h', fs', Some f).
Proof.
  exists loc_ex, parent_ex, (fun _ => false), (heap_of ["d/x"; "d"]), (whole 2), fs_ex.
  split; [split; vm_compute; lia|]. split; [done|]. split.
  - exists "d". split; [by right; left|]. split; [reflexivity|]. intros c Hc Hp.
    exists "d/x". split; [by left|]. do 5 (destruct c as [|c]; [done|]). done.
  - eexists _, _, "d". vm_compute. reflexivity.
Qed.
Print Assumptions C52_directory_trees_refuted.

(** ** C53.  What Clean.Run does to the caller's strings: without Autoclean, or with spare
    capacity, it writes; otherwise it does not.
    Missing: see the refutation. *)
Theorem C53_full_capacity_unchanged_partial loc parent stuck h files dry reg extra fs h' fs' e a xs :
  reg <> [] -> s_len files = s_cap files -> h !! a = Some xs ->
  Run loc parent stuck h files true dry reg extra fs = (h', fs', e) -> h' !! a = Some xs.
Proof.
  intros Hr Hc Ha. unfold Run, append.
  rewrite decide_False by (destruct reg; [done|simpl; lia]).
  set (b := fresh (dom h)). set (h1 := <[b := _]> h). set (s1 := {| s_arr := b; s_off := _; s_len := _; s_cap := _ |}).
  assert (Hab : a <> b).
  { intros ->. assert (b ∉ dom h) by apply is_fresh. apply H. apply elem_of_dom. eauto. }
  assert (H1 : sort h1 s1 !! a = Some xs).
  { unfold sort, write. simpl. rewrite lookup_insert_ne by done. unfold h1. by rewrite lookup_insert_ne. }
  destruct (decide _); [by intros [= <- _ _]|]. destruct dry; [by intros [= <- _ _]|].
  destruct (remove_loop _ _ _ _ _) as [f1 e1]. by intros [= <- _ _].
Qed.
Print Assumptions C53_full_capacity_unchanged_partial.

Theorem C53_without_autoclean_sorts_partial loc parent stuck h files dry reg extra fs h' fs' e :
  slice_ok h files -> Run loc parent stuck h files false dry reg extra fs = (h', fs', e) ->
  contents h' files = ssort (contents h files) /\
  (forall a, a <> s_arr files -> h' !! a = h !! a) /\
  (forall i, i < s_off files \/ s_off files + s_len files <= i -> array h' (s_arr files) !! i = array h (s_arr files) !! i).
Proof.
  intros Hok H. assert (h' = sort h files) as ->.
  { unfold Run in H. destruct (decide _); [congruence|]. destruct dry; [congruence|].
    destruct (remove_loop _ _ _ _ _) as [f1 e1]. congruence. }
  split; [by apply contents_sort|]. split.
  - intros a Ha. unfold sort, write. by rewrite lookup_insert_ne.
  - intros i Hi. unfold sort. rewrite array_write. destruct Hok as [H1 H2].
    assert (Hl : length (ssort (contents h files)) = s_len files).
    { rewrite (Permutation_length (ssort_perm _)). unfold contents. rewrite take_length, drop_length. lia. }
    destruct Hi as [Hi|Hi].
    + rewrite lookup_app_l by (rewrite take_length; lia). by rewrite lookup_take.
    + rewrite lookup_app_r by (rewrite take_length; lia). rewrite lookup_app_r by (rewrite take_length; lia).
      rewrite lookup_drop, take_length, Hl. f_equal. lia.
Qed.
Print Assumptions C53_without_autoclean_sorts_partial.

(** ** Refuted: the caller's slice is sorted in place; and with Autoclean and spare capacity
    other slices of the same array are overwritten, and Files itself loses a name, so that a
    later run of the same target leaves that file in place. *)
Theorem C53_files_sorted_in_place_refuted :
  exists loc parent stuck h files fs h' fs', slice_ok h files /\
    Run loc parent stuck h files false false [] [] fs = (h', fs', None) /\ contents h' files <> contents h files.
Proof.
  exists loc_ex, parent_ex, (fun _ => false), (heap_of ["b"; "a"]), (whole 2), fs_ex. eexists _, _.
  split; [split; vm_compute; lia|]. split; [vm_compute; reflexivity|]. vm_compute. done.
Qed.
Print Assumptions C53_files_sorted_in_place_refuted.
Theorem C53_spare_capacity_refuted :
  exists loc parent stuck h files other reg fs h' fs' h'' fs'',
    slice_ok h files /\ slice_ok h other /\
    Run loc parent stuck h files true false reg [] fs = (h', fs', None) /\
    contents h files = ["b"] /\ contents h' files = ["a"] /\
    contents h other = ["precious"] /\ contents h' other = ["b"] /\
    (* then b is made again, and the same target run again *)
    Run loc parent stuck h' files true false reg [] (<[loc "b" := File]> fs') = (h'', fs'', None) /\
    fs'' !! loc "b" = Some File.
Proof.
  exists loc_ex, parent_ex, (fun _ => false), (heap_of ["b"; "precious"]),
    {| s_arr := 0; s_off := 0; s_len := 1; s_cap := 2 |}, {| s_arr := 0; s_off := 1; s_len := 1; s_cap := 1 |}, ["a"], fs_ex.
  eexists _, _, _, _. split; [split; vm_compute; lia|]. split; [split; vm_compute; lia|].
  split; [vm_compute; reflexivity|]. do 4 (split; [vm_compute; reflexivity|]). split; vm_compute; reflexivity.
Qed.
Print Assumptions C53_spare_capacity_refuted.
