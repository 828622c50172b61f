(** Properties C28 (JoinPath), C29 (references across YAML files), C30 (TopDir) and the
    search part of C23 (file chaining).  Vocabulary: PathSpec.v, TopDirSpec.v. *)
From stdpp Require Import base gmap list strings.
From Verif Require Import PathModel PathSpec PathProofs PathProofs2 PathProofs3 PathProofs4 FindModel.
From Verif Require Import TopDirModel TopDirSpec TopDirProofs.
Local Open Scope list_scope.

(** ** C28: JoinPath(elts...) leads where following the top directory and then each
    element leads (an absolute element starts over at the root) ... *)
Theorem C28_joinpath_location l top elts :
  cd l (JoinPath top elts) = fold_left cd elts (cd l top).
Proof. exact (joinpath_lem l top elts). Qed.
Print Assumptions C28_joinpath_location.

(** ... the result is in normal form ... *)
Theorem C28_joinpath_clean top elts : JoinPath top elts = "" \/ clean (JoinPath top elts).
Proof. exact (joinpath_clean top elts). Qed.
Print Assumptions C28_joinpath_clean.

(** ... and is absolute exactly if the top directory or some element is. *)
Theorem C28_joinpath_absolute top elts :
  IsAbs (JoinPath top elts) = true <-> IsAbs top = true \/ exists e, e ∈ elts /\ IsAbs e = true.
Proof. exact (joinpath_abs top elts). Qed.
Print Assumptions C28_joinpath_absolute.

(** A path in normal form is unchanged by Clean and goes where the original went. *)
Theorem C28_clean_idempotent_same_place l s : clean (Clean s) /\ cd l (Clean s) = cd l s.
Proof. split; [exact (Clean_idem s)|exact (cd_Clean l s)]. Qed.
Print Assumptions C28_clean_idempotent_same_place.

Example C28_case :
  JoinPath "/top" ["a/b"; "c/d"] = "/top/a/b/c/d" /\
  JoinPath "/top" ["a/b"; "/c/d"] = "/c/d" /\
  JoinPath "/top" ["/x"; "..//y/./z/"] = "/y/z" /\
  JoinPath "" ["../a"; "../../b"] = "../../b" /\
  cd [] (JoinPath "/top" ["a/b"; "../c"]) = ["c"; "a"; "top"].
Proof. vm_compute. done. Qed.

(** ** C29: a reference with a slash in the YAML file of directory D', leading to target T
    of directory D (given by its list of names [ds]), has as its key exactly the name under
    which reading D's YAML file registers T.  With an absolute top directory, however the
    path wanders: *)
Theorem C29_reference_key_absolute_top top D' r ds T :
  IsAbs top = true -> Forall name ds -> name T -> has_slash r = true ->
  cd (cd (cd [] top) D') r = T :: reverse ds ++ cd [] top ->
  exists key, ref_key top D' r = Some key /\
    exists dir, file_dir top (Dir key) = Some dir /\ dir = join ds /\ reg_name dir T = key.
Proof. exact (ref_abs_lem top D' r ds T). Qed.
Print Assumptions C29_reference_key_absolute_top.

(** With any top directory (also relative or empty), if the path stays inside it: *)
Theorem C29_reference_key_any_top_partial top D' r ds T :
  Forall name ds -> name T -> has_slash r = true -> IsAbs D' = false -> IsAbs r = false ->
  inside [] (split D' ++ split r) = Some (T :: reverse ds) ->
  exists key, ref_key top D' r = Some key /\
    exists dir, file_dir top (Dir key) = Some dir /\ dir = join ds /\ reg_name dir T = key.
Proof. exact (ref_inside_lem top D' r ds T). Qed.
Print Assumptions C29_reference_key_any_top_partial.

(** With a relative top directory (fab -top .) a path that leaves it and comes back gets
    a different key. *)
Theorem C29_leaving_relative_top_refuted :
  exists top D' r ds T w, IsAbs w = true /\ Forall name ds /\ name T /\ has_slash r = true /\
    cd (cd (cd (cd [] w) top) D') r = T :: reverse ds ++ cd (cd [] w) top /\
    ref_key top D' r <> Some (reg_name (join ds) T).
Proof.
  exists ".", "a", "../../proj/x/T", ["x"], "T", "/home/proj".
  split; [done|]. split; [apply Forall_singleton; by repeat split|]. split; [by repeat split|].
  split; [done|]. split; [vm_compute; done|]. vm_compute. done.
Qed.
Print Assumptions C29_leaving_relative_top_refuted.

(** What the key means: RelPath(p) is a relative path that leads from the top directory to p,
    for absolute paths, and for relative ones if the top directory's path does not climb out
    of the working directory. *)
Theorem C29_relpath_leads_there l top p :
  IsAbs top = IsAbs p -> (IsAbs top = true \/ is_Some (inside [] (split top))) ->
  exists r, RelPath top p = Some r /\ IsAbs r = false /\ cd (cd l top) r = cd l p.
Proof. exact (relpath_lem l top p). Qed.
Print Assumptions C29_relpath_leads_there.
Example C29_relpath_case :
  RelPath "/home/proj" "/home/other/x" = Some "../other/x" /\ RelPath "a/b" "a/c/d" = Some "../c/d".
Proof. vm_compute. done. Qed.

Example C29_case :
  (cd (cd (cd [] "/home/proj") "a/b") "../../../proj/x/y/T" = "T" :: reverse ["x"; "y"] ++ cd [] "/home/proj" /\
   ref_key "/home/proj" "a/b" "../../../proj/x/y/T" = Some "x/y/T") /\
  (inside [] (split "a/b" ++ split "../../x/y/T") = Some ("T" :: reverse ["x"; "y"]) /\
   ref_key "../proj" "a/b" "../../x/y/T" = Some "x/y/T" /\ ref_key "" "a/b" "../../x/y/T" = Some "x/y/T") /\
  (ref_key "" "a" "../T" = Some "T" /\ file_dir "" "." = Some "" /\ reg_name "" "T" = "T").
Proof. vm_compute. done. Qed.

(** ** C30: TopDir.  The search terminates ... *)
Theorem C30_terminates decode fs cwd dir : TopDir decode fs cwd dir <> OutOfFuel.
Proof. exact (TopDir_terminates decode fs cwd dir). Qed.
Print Assumptions C30_terminates.

(** ... an answer is about the nearest enclosing directory [a] that is marked: [a] itself
    if it has a _fab directory or its fab.yaml has no _dir; otherwise the ancestor [t] of
    [a] from which the declared _dir (not ending in a slash) leads to [a] ... *)
Theorem C30_sound_partial decode fs w dir r :
  IsAbs w = true -> TopDir decode fs (Some w) dir = Ok r ->
  exists closer a, cd (cd [] w) dir = closer ++ a /\
    (forall c1 c2, closer = c1 ++ c2 -> c2 <> [] -> unmarked fs (c2 ++ a)) /\
    ((has_fab fs a /\ r = abs_path a) \/
     exists c, yaml_file fs a c /\
       ((decode c = Some None /\ r = abs_path a) \/
        exists decl, decode c = Some (Some decl) /\ IsAbs decl = false /\
          (no_trailing_slash decl -> exists x t, x <> [] /\ a = x ++ t /\ r = abs_path t /\ cd t decl = a))).
Proof. exact (topdir_sound decode fs w dir r). Qed.
Print Assumptions C30_sound_partial.

(** ... and it is found: *)
Theorem C30_complete_partial decode fs w dir closer a :
  IsAbs w = true -> cd (cd [] w) dir = closer ++ a ->
  (forall c1 c2, closer = c1 ++ c2 -> c2 <> [] -> unmarked fs (c2 ++ a)) ->
  (has_fab fs a -> TopDir decode fs (Some w) dir = Ok (abs_path a)) /\
  (forall c, (entry_in fs a "_fab" = NotExist \/ exists c, entry_in fs a "_fab" = IsFile c) -> yaml_file fs a c ->
     (decode c = Some None -> TopDir decode fs (Some w) dir = Ok (abs_path a)) /\
     (forall ds t, decode c = Some (Some (join ds)) -> Forall name ds -> ds <> [] -> a = reverse ds ++ t ->
        TopDir decode fs (Some w) dir = Ok (abs_path t))).
Proof. exact (topdir_complete decode fs w dir closer a). Qed.
Print Assumptions C30_complete_partial.

(** A file system with the single file /foo/foo/fab.yaml, whose _dir is given. *)
Definition one_yaml (p : string) : fsys := fun q => if decide (q = p) then IsFile "" else NotExist.

(** Refuted for a _dir with a trailing slash: in /foo/foo, "_dir: foo/" gives "/" although
    /foo/ is not that directory ... *)
Theorem C30_trailing_slash_wrong_answer_refuted :
  exists fs decode r decl, TopDir decode fs (Some "/foo/foo") "." = Ok r /\
    yaml_file fs ["foo"; "foo"] "" /\ decode "" = Some (Some decl) /\
    cd (cd [] r) decl <> cd [] "/foo/foo".
Proof.
  exists (one_yaml "/foo/foo/fab.yaml"), (fun _ => Some (Some "foo/")), "/", "foo/".
  split_and!; try (vm_compute; done). left. vm_compute. done.
Qed.
Print Assumptions C30_trailing_slash_wrong_answer_refuted.

(** ... and for an empty _dir: TopDir fails although the declaration is true (the directory
    is its own top) and ReadYAML accepts it there (yaml.go:203: decl.Value == dir == ""). *)
Theorem C30_empty_decl_rejected_refuted :
  exists fs decode decl, TopDir decode fs (Some "/proj") "." = ErrMismatch decl "/proj" /\
    yaml_file fs ["proj"] "" /\ decode "" = Some (Some decl) /\
    cd (cd [] "/proj") decl = cd [] "/proj" /\ file_dir "/proj" "" = Some decl.
Proof.
  exists (one_yaml "/proj/fab.yaml"), (fun _ => Some (Some "")), "".
  split_and!; try (vm_compute; done). left. vm_compute. done.
Qed.
Print Assumptions C30_empty_decl_rejected_refuted.

Example C30_case :
  let fs := one_yaml "/home/proj/a/b/fab.yaml" in
  let decode := fun _ : string => Some (Some "a/b") in
  TopDir decode fs (Some "/home/proj/a") "b/c/d" = Ok "/home/proj" /\
  cd (cd [] "/home/proj/a") "b/c/d" = ["d"; "c"] ++ ["b"; "a"; "proj"; "home"] /\
  (forall c1 c2, ["d"; "c"] = c1 ++ c2 -> c2 <> [] -> unmarked fs (c2 ++ ["b"; "a"; "proj"; "home"])) /\
  yaml_file fs ["b"; "a"; "proj"; "home"] "" /\ join ["a"; "b"] = "a/b" /\ Forall name ["a"; "b"].
Proof.
  split_and!; try (vm_compute; done).
  - intros c1 c2 E Hne. destruct c1 as [|x [|y [|z c1]]]; simplify_eq/=; try done; repeat split; try (vm_compute; done); left; vm_compute; done.
  - left. vm_compute. done.
  - apply Forall_cons. split; [by repeat split|]. apply Forall_singleton. by repeat split.
Qed.

(** ** C23, the search for producers.  The registry maps each name to the last declared
    Files target that lists it as an output ... *)
Theorem C23_registry_last_declaration fs n f :
  declare_all fs !! n = Some f <->
  exists before after, fs = before ++ f :: after /\ n ∈ f_out f /\ forall f', f' ∈ after -> n ∉ f_out f'.
Proof. exact (declare_all_lem fs n f). Qed.
Print Assumptions C23_registry_last_declaration.

(** ... the search terminates for every name and registry ... *)
Theorem C23_search_terminates reg name : findInFilesRegistry reg name <> FindOutOfFuel.
Proof. exact (find_terminates reg name). Qed.
Print Assumptions C23_search_terminates.

(** ... and finds the entry of the path itself or else of its nearest registered enclosing
    directory (other than "." and "/"). *)
Theorem C23_search_nearest reg p :
  clean p -> p <> "." -> p <> "/" ->
  match findInFilesRegistry reg p with
  | Found f => exists k, 1 <= k <= length (comps p) /\ reg !! ancestor p k = Some f /\
      forall j, k < j <= length (comps p) -> reg !! ancestor p j = None
  | NotFound => forall k, 1 <= k <= length (comps p) -> reg !! ancestor p k = None
  | FindOutOfFuel => False
  end.
Proof. exact (find_spec reg p). Qed.
Print Assumptions C23_search_nearest.

Definition ex_f1 := {| f_id := 1; f_in := []; f_out := ["gen"; "x"] |}.
Definition ex_f2 := {| f_id := 2; f_in := []; f_out := ["gen/a"; "x"] |}.
Example C23_case :
  clean "gen/a/b.txt" /\ ancestor "gen/a/b.txt" 2 = "gen/a" /\ ancestor "gen/a/b.txt" 3 = "gen/a/b.txt" /\
  findInFilesRegistry (declare_all [ex_f1; ex_f2]) "gen/a/b.txt" = Found ex_f2 /\
  findInFilesRegistry (declare_all [ex_f1; ex_f2]) "gen/b/c.txt" = Found ex_f1 /\
  findInFilesRegistry (declare_all [ex_f1; ex_f2]) "x" = Found ex_f2 /\
  findInFilesRegistry (declare_all [ex_f1; ex_f2]) "/gen/a" = NotFound /\
  prereqs (declare_all [ex_f1; ex_f2]) ["other"; "gen/q"; "x"] = [ex_f1; ex_f2].
Proof. vm_compute. done. Qed.
