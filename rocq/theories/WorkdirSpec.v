(** Vocabulary for C100. *)
From stdpp Require Import base gmap list strings relations.
From Verif Require Import PathModel CompileModel CompileSpec WorkdirModel.
Local Open Scope list_scope.

(** A file system: what something is in is a directory. *)
Definition proper (fs : fsys) : Prop := forall p nd, fs !! p = Some nd -> is_dir fs (parent p).
(** No two things in a directory of the embedded sources have the same name. *)
Definition root_name (t : etree) : string := match t with EFile n _ => n | EDir n _ => n end.
Inductive distinct_names : list etree -> Prop :=
  distinct_intro ts : NoDup (root_name <$> ts) -> (forall n ch, EDir n ch ∈ ts -> distinct_names ch) -> distinct_names ts.
(** The package [es] is in the directory [pkgdir]. *)
Definition package_there (fs : fsys) (pkgdir : path) (es : list entry) : Prop :=
  is_dir fs pkgdir /\ NoDup (e_name <$> es) /\
  forall e, e ∈ es -> e_isdir e = false -> fs !! (pkgdir ++ [e_name e]) = Some (FFile (e_content e)).

(** The files that the driver is built from, by path in the temporary directory: the embedded
    sources of fab without tests; the Go files of the package without tests; driver.go. *)
Definition source (T : tools) (es : list entry) (d : driver) (q : path) (c : string) : Prop :=
  (exists t p, t ∈ t_embeds T /\ in_tree t p c /\ (forall b, last p = Some b -> ~ ends_in "_test.go" b) /\ q = "fab" :: p) \/
  (exists e, e ∈ es /\ go_file e /\ ~ test_file e /\ c = e_content e /\ q = ["pkg"; d_subpkg d; e_name e]) \/
  (q = ["driver.go"] /\ c = t_render T d).
(** [exe] is what go build makes of these files and a go.mod with the replacement of fab; no
    other file but go.sum is there. *)
Definition built_from (T : tools) (es : list entry) (d : driver) (exe : string) : Prop :=
  exists tree, t_build T tree = Some exe /\
    (forall q c, q <> ["go.mod"] -> q <> ["go.sum"] -> (tree q = Some (FFile c) <-> source T es d q c)) /\
    exists m m', t_addreplace T (t_modinit T) = Some m /\ t_tidied T m m' /\ tree ["go.mod"] = Some (FFile m').

(** Nothing differs, but perhaps [tmpdir] and what is below it. *)
Definition outside (tmpdir : path) (fs fs' : fsys) : Prop := forall p, ~ tmpdir `prefix_of` p -> fs' !! p = fs !! p.
Definition tmp_of (ph : phase) : option path := match ph with Working t _ | Cleaning t _ => Some t | _ => None end.
