(** Model of [import_submodules] (src/arti/internal/utils.py:50-83), of the vendored
    [find_namespace_packages] (src/arti/internal/vendored/setuptools.py:46-127) and of
    [_discover] (src/arti/io/__init__.py:21-27). Definitions only.

    Directories are finite trees, with links already followed (os.walk is called with
    followlinks=True; a cycle of links is not modelled). Paths are absolute; ".." is not
    modelled. Listings are taken in the order of the tree (pkgutil sorts them, which matters
    for the order of the imports only). *)
From Coq Require Import List String Ascii Bool.
From Verif Require Import Base Str Storage_Model.
Import ListNotations.

Inductive node : Type :=
| File
| Dir (entries : list (str * node)).

(** ["." in dir] *)
Definition has_dot (s : str) : bool := existsb (Ascii.eqb ".") s.

Fixpoint descend (n : node) (ds : list str) : option node :=
  match ds with
  | [] => Some n
  | d :: ds' => match n with
                | File => None
                | Dir es => match dget str_eqb es d with
                            | Some c => descend c ds'
                            | None => None
                            end
                end
  end.

(** pathlib: the parts of a path, and [str(Path(path).joinpath( *names))]. *)
Definition path_parts (s : str) : list str :=
  filter (fun p => negb (str_eqb p [] || str_eqb p $".")) (split_char "/" s).
Definition joinpath (path : str) (names : list str) : str :=
  "/"%char :: join $"/" (path_parts path ++ names).
Definition resolve (root : node) (path : str) : option node := descend root (path_parts path).

(** setuptools.py:111-117 with the patterns of 53 and 71: the wildcards of [fnmatchcase] that
    occur are "*" only. *)
Definition build_filter (patterns : list str) (name : str) : bool :=
  existsb (fun p => fnmatch p name) patterns.
Definition exclude : str -> bool := build_filter [$"ez_setup"; $"*__pycache__"].
Definition include : str -> bool := build_filter [$"*"].

(** setuptools.py:76-104, [os.walk] included: [prefix] are the names of the directories
    between [where] and [root]; [rel_path] joins them with the separator, [package] replaces
    the separators by dots. [_looks_like_package] is always true (120-123). *)
Definition package (names : list str) : str := replace $"/" $"." (join $"/" names).
Definition package_yielded (prefix : list str) (entry : str * node) : list str :=
  match snd entry with
  | File => []
  | Dir _ => if has_dot (fst entry) then []
             else let p := package (prefix ++ [fst entry]) in
                  if include p && negb (exclude p) then [p] else []
  end.
Fixpoint walk (prefix : list str) (n : node) : list str :=
  match n with
  | File => []
  | Dir es =>
      flat_map (package_yielded prefix) es ++
      (fix below (es : list (str * node)) : list str :=
         match es with
         | [] => []
         | (d, c) :: es' => (if has_dot d then [] else walk (prefix ++ [d]) c) ++ below es'
         end) es
  end.
(** A missing directory is walked without a result (os.walk ignores errors). *)
Definition find_namespace_packages (root : node) (path : str) : list str :=
  match resolve root path with Some n => walk [] n | None => [] end.

(** pkgutil.iter_modules with one path (the standard library's [_iter_file_finder_modules]):
    [suffixes] are importlib.machinery.all_suffixes(), the longest first. *)
Section Modules.
  Context (suffixes : list str).

  Definition ends_with (suffix s : str) : bool := starts_with (rev suffix) (rev s).
  Definition getmodulename (f : str) : option str :=
    match find (fun suffix => ends_with suffix f) suffixes with
    | Some suffix => Some (firstn (List.length f - List.length suffix) f)
    | None => None
    end.
  Definition is_init (f : str) : bool :=
    match getmodulename f with Some m => str_eqb m $"__init__" | None => false end.
  Definition module_of_entry (entry : str * node) : list str :=
    let (f, c) := entry in
    if is_init f then []
    else
      let named := match getmodulename f with
                   | Some (a :: m) => Some (a :: m)
                   | _ => match c with
                          | Dir sub => if negb (has_dot f) && existsb is_init (map fst sub)
                                       then Some f else None
                          | File => None
                          end
                   end in
      match named with
      | Some m => if has_dot m then [] else [m]
      | None => []
      end.
  Definition iter_modules (root : node) (path : str) : list str :=
    match resolve root path with
    | Some (Dir es) => nodup (list_eq_dec ascii_dec) (flat_map module_of_entry es)
    | _ => []
    end.

  (** utils.py:71-78 *)
  Definition path_names (root : node) (paths : list str) (name : str) : list (str * str) :=
    let given := dict_of str_eqb (map (fun p => (p, name)) paths) in
    dupdate str_eqb given
      (flat_map (fun pn => map (fun n => (joinpath (fst pn) (split_char "." n), snd pn ++ $"." ++ n))
                               (find_namespace_packages root (fst pn))) given).
  (** utils.py:79-83: the names in the order of the imports. *)
  Definition submodule_names (root : node) (paths : list str) (name : str) : list str :=
    flat_map (fun pn => map (fun m => snd pn ++ $"." ++ m) (iter_modules root (fst pn)))
             (path_names root paths name).

  (** [importlib.import_module]: a module in [sys.modules] is taken from there. Otherwise its
      parent is imported first, then its code is run, and it stays in [sys.modules] unless that
      raises. [body] says whether running a module raises, given the modules loaded so far;
      modules importing others and the search for a module's file are not modelled. *)
  Record modules := Modules { loaded : list str; ran : list str }.
  Context (body : str -> list str -> option exn).
  Definition run (name : str) (st : modules) : result unit * modules :=
    match body name (loaded st) with
    | None => (Ok tt, Modules (loaded st ++ [name]) (ran st ++ [name]))
    | Some e => (Err e, Modules (loaded st) (ran st ++ [name]))
    end.
  (** The parts of the name, the last one first. *)
  Fixpoint import_parts (parts : list str) (st : modules) : result unit * modules :=
    match parts with
    | [] => (Ok tt, st)
    | _ :: parent =>
        let name := join $"." (rev parts) in
        if existsb (str_eqb name) (loaded st) then (Ok tt, st)
        else match import_parts parent st with
             | (Ok _, st') => run name st'
             | (Err e, st') => (Err e, st')
             end
    end.
  Definition import_module (name : str) : modules -> result unit * modules :=
    import_parts (rev (split_char "." name)).
  Fixpoint import_all (names : list str) (st : modules) : result (list str) * modules :=
    match names with
    | [] => (Ok [], st)
    | n :: names' =>
        match import_module n st with
        | (Ok _, st1) => match import_all names' st1 with
                         | (Ok ns, st2) => (Ok (n :: ns), st2)
                         | (Err e, st2) => (Err e, st2)
                         end
        | (Err e, st1) => (Err e, st1)
        end
    end.
  (** utils.py:50-83. The modules of the returned dictionary are given by their names. *)
  Definition import_submodules (root : node) (paths : list str) (name : str) (st : modules)
    : result (list str) * modules :=
    match import_all (submodule_names root paths name) st with
    | (Ok ns, st') => (Ok (map fst (dict_of str_eqb (map (fun n => (n, tt)) ns))), st')
    | (Err e, st') => (Err e, st')
    end.

  (** io/__init__.py:21-27: [known] is the global [_submodules]. *)
  Definition discover_io (root : node) (paths : list str) (name : str)
      (known : option (list str)) (st : modules) : result unit * (option (list str) * modules) :=
    match known with
    | Some _ => (Ok tt, (known, st))
    | None => match import_submodules root paths name st with
              | (Ok ns, st') => (Ok tt, (Some ns, st'))
              | (Err e, st') => (Err e, (None, st'))
              end
    end.
End Modules.
