(** C59: finding and importing submodules. *)
From Coq Require Import List String Ascii Bool.
From Verif Require Import Base Str Modules_Model Modules_Spec Modules_Proofs.
Import ListNotations.

(** The returned modules are exactly those in the given directories and in the directories
    searched below them, each once, called after where they are. *)
Theorem C59_exactly : forall suffixes body root pss name st ns st',
  file_system root -> Forall (Forall file_name) pss -> apart pss ->
  import_submodules suffixes body root (map path_of pss) name st = (Ok ns, st') ->
  NoDup ns /\ forall m, In m ns <->
    exists p ds es x, In p pss /\ searched ds /\ below root (p ++ ds) (Dir es) /\
                      module_in suffixes es x /\ m = dotted (name :: ds ++ [x]).
Proof. exact exactly. Qed.
Print Assumptions C59_exactly.

(** All of them are loaded then; what was run are modules that were not loaded before, each
    once, after the packages they belong to, and nothing but these modules and packages. *)
Theorem C59_effects : forall suffixes body root paths name st ns st',
  import_submodules suffixes body root paths name st = (Ok ns, st') ->
  (forall m, In m ns -> In m (loaded st')) /\
  exists new, loads st new st' /\ ran st' = ran st ++ new /\
              forall m, In m new -> exists n, In n ns /\ (m = n \/ parent m n).
Proof. exact effects. Qed.
Print Assumptions C59_effects.

(** An exception is that of the last module run, which is one of these modules or packages and
    is not loaded; those run before it stay loaded. *)
Theorem C59_failed : forall suffixes body root pss name st e st',
  file_system root -> Forall (Forall file_name) pss -> apart pss ->
  import_submodules suffixes body root (map path_of pss) name st = (Err e, st') ->
  exists new m, loads st new st' /\ ran st' = ran st ++ new ++ [m] /\
    body m (loaded st') = Some e /\ ~ In m (loaded st') /\
    exists p ds es x n, In p pss /\ searched ds /\ below root (p ++ ds) (Dir es) /\ module_in suffixes es x /\
                        n = dotted (name :: ds ++ [x]) /\ (m = n \/ parent m n).
Proof. exact failed. Qed.
Print Assumptions C59_failed.

(** Below one directory no module is asked for twice. *)
Theorem C59_asked_once : forall suffixes root p name, file_system root -> Forall file_name p ->
  NoDup (submodule_names suffixes root [path_of p] name).
Proof. exact names_once. Qed.
Print Assumptions C59_asked_once.

(** Importing again returns the same and runs nothing. *)
Theorem C59_again : forall suffixes body body' root paths name st ns st',
  import_submodules suffixes body root paths name st = (Ok ns, st') ->
  import_submodules suffixes body' root paths name st' = (Ok ns, st').
Proof. exact import_again. Qed.
Print Assumptions C59_again.

(** The discovery of io handlers remembers success, once and for all, and never failure. *)
Theorem C59_discovered : forall suffixes body root paths name known st,
  match discover_io suffixes body root paths name known st with
  | (Ok _, (known', st')) =>
      (exists ns, known' = Some ns /\
         (known = None -> forall m, In m ns <-> In m (submodule_names suffixes root paths name))) /\
      (known <> None -> known' = known /\ st' = st) /\
      forall body' root' paths' name', discover_io suffixes body' root' paths' name' known' st' = (Ok tt, (known', st'))
  | (Err e, (known', st')) => known = None /\ known' = None /\ exists m, body m (loaded st') = Some e
  end.
Proof. exact discovered. Qed.
Print Assumptions C59_discovered.

(** The directory of the tests, below /t, with a few entries that are skipped. *)
Definition example_root : node :=
  Dir [($"t", Dir [($"__init__.py", File); ($"a.py", File); ($"notes.txt", File);
                   ($"__pycache__", Dir [($"a.pyc", File)]); ($"v1.0", Dir [($"old.py", File)]);
                   ($"sub", Dir [($"b.py", File); ($"pkg", Dir [($"__init__.py", File); ($"d.py", File)]);
                                 ($"folder", Dir [($"c.py", File)])])])].
Definition example_suffixes : list str := [$".pyc"; $".py"; $".so"].

Example C59_instance :
  import_submodules example_suffixes (fun _ _ => None) example_root [path_of [$"t"]] $"n" (Modules [$"n"] [$"n"]) =
  (Ok [$"n.a"; $"n.sub.b"; $"n.sub.pkg"; $"n.sub.pkg.d"; $"n.sub.folder.c"],
   Modules [$"n"; $"n.a"; $"n.sub"; $"n.sub.b"; $"n.sub.pkg"; $"n.sub.pkg.d"; $"n.sub.folder"; $"n.sub.folder.c"]
           [$"n"; $"n.a"; $"n.sub"; $"n.sub.b"; $"n.sub.pkg"; $"n.sub.pkg.d"; $"n.sub.folder"; $"n.sub.folder.c"]).
Proof. vm_compute. reflexivity. Qed.

Example C59_instance_failed :
  import_submodules example_suffixes (fun m _ => if str_eqb m $"n.sub.pkg" then Some TypeError else None)
    example_root [path_of [$"t"]] $"n" (Modules [$"n"] []) =
  (Err TypeError, Modules [$"n"; $"n.a"; $"n.sub"; $"n.sub.b"] [$"n.a"; $"n.sub"; $"n.sub.b"; $"n.sub.pkg"]).
Proof. vm_compute. reflexivity. Qed.

(** Two given directories, one below the other: the modules of the inner one are not imported
    under the given name. *)
Theorem C59_overlap_refuted :
  exists suffixes body root pss name st ns st' p es x,
    file_system root /\ Forall (Forall file_name) pss /\
    import_submodules suffixes body root (map path_of pss) name st = (Ok ns, st') /\
    In p pss /\ below root p (Dir es) /\ module_in suffixes es x /\ ~ In (dotted [name; x]) ns.
Proof. exact overlap. Qed.
Print Assumptions C59_overlap_refuted.
