(** Model of src/arti/storage/_internal.py lines 15-119: the placeholders and the partial
    formatting built on Python's [string.Formatter]. Definitions only.

    Python's format string parser (CPython's MarkupIterator) and field name parser
    (FieldNameIterator) are modelled character by character. Simplifications: malformed
    field names and nested format specs are rejected before the looked up object is
    touched, so when several things are wrong another exception may win; conversions
    (["!r"]) end in [UserError 0]; so do attributes the placeholder objects have of their
    own (["_key"], ["__class__"], ...), whose text is not modelled; a field name starting
    with an accessor (["{.a}"]) is treated like the unnamed field. *)
From Coq Require Import ZArith NArith List Ascii String Bool.
From Verif Require Import Base Str Numerals_Model Partitions_Model.
Import ListNotations.
Open Scope list_scope.

Notation "a =c b" := (Ascii.eqb a b%char) (at level 70).

(** * [string.Formatter().parse] *)
Inductive item := ILit (s : str) | IField (name spec : str) (conv : option ascii) | IErr.

(** The state of the parser: accumulators are reversed. *)
Inductive pstate :=
| SLit (acc : str)                  (* in literal text *)
| SOpen (acc : str)                 (* after an opening brace *)
| SClose (acc : str)                (* after a closing brace in literal text *)
| SName (acc : str)                 (* in a field name *)
| SBrack (acc : str)                (* inside [ ] of a field name *)
| SConv (name : str)                (* after "!" *)
| SConvEnd (name : str) (c : ascii) (* after the conversion character *)
| SSpec (name : str) (conv : option ascii) (acc : str) (depth : nat).

Fixpoint parse_from (st : pstate) (s : str) : list item :=
  match s with
  | [] => match st with SLit acc => [ILit (rev acc)] | _ => [IErr] end
  | c :: s' =>
      let in_name acc :=
        if c =c "{" then [IErr]
        else if c =c "[" then parse_from (SBrack (c :: acc)) s'
        else if c =c "}" then IField (rev acc) [] None :: parse_from (SLit []) s'
        else if c =c ":" then parse_from (SSpec (rev acc) None [] 0) s'
        else if c =c "!" then parse_from (SConv (rev acc)) s'
        else parse_from (SName (c :: acc)) s' in
      match st with
      | SLit acc =>
          if c =c "{" then parse_from (SOpen acc) s'
          else if c =c "}" then parse_from (SClose acc) s'
          else parse_from (SLit (c :: acc)) s'
      | SOpen acc =>
          if c =c "{" then ILit (rev (c :: acc)) :: parse_from (SLit []) s'   (* "{{" *)
          else ILit (rev acc) :: in_name []
      | SClose acc =>
          if c =c "}" then ILit (rev (c :: acc)) :: parse_from (SLit []) s'   (* "}}" *)
          else [IErr]
      | SName acc => in_name acc
      | SBrack acc =>
          if c =c "]" then parse_from (SName (c :: acc)) s' else parse_from (SBrack (c :: acc)) s'
      | SConv name => parse_from (SConvEnd name c) s'
      | SConvEnd name conv =>
          if c =c "}" then IField name [] (Some conv) :: parse_from (SLit []) s'
          else if c =c ":" then parse_from (SSpec name (Some conv) [] 0) s'
          else [IErr]
      | SSpec name conv acc depth =>
          if c =c "{" then parse_from (SSpec name conv (c :: acc) (S depth)) s'
          else if c =c "}" then
            match depth with
            | O => IField name (rev acc) conv :: parse_from (SLit []) s'
            | S d => parse_from (SSpec name conv (c :: acc) d) s'
            end
          else parse_from (SSpec name conv (c :: acc) depth) s'
      end
  end.
Definition parse_format (s : str) : list item := parse_from (SLit []) s.

(** * Field names: [first.attr[index]...] *)
Inductive accessor := Attr (name : str) | Idx (key : str).

Inductive astate := AStart | AAttr (acc : str) | AIdx (acc : str).
Fixpoint accessors_from (st : astate) (s : str) : option (list accessor) :=
  match s with
  | [] => match st with
          | AStart => Some []
          | AAttr [] => None
          | AAttr acc => Some [Attr (rev acc)]
          | AIdx _ => None
          end
  | c :: s' =>
      match st with
      | AStart => if c =c "." then accessors_from (AAttr []) s'
                  else if c =c "[" then accessors_from (AIdx []) s'
                  else None
      | AAttr acc =>
          if (c =c ".") || (c =c "[") then
            match acc with
            | [] => None
            | _ => option_map (cons (Attr (rev acc)))
                     (accessors_from (if c =c "." then AAttr [] else AIdx []) s')
            end
          else accessors_from (AAttr (c :: acc)) s'
      | AIdx acc =>
          if c =c "]" then
            match acc with
            | [] => None
            | _ => option_map (cons (Idx (rev acc))) (accessors_from AStart s')
            end
          else accessors_from (AIdx (c :: acc)) s'
      end
  end.
Fixpoint first_of (s : str) : str * str :=
  match s with
  | [] => ([], [])
  | c :: s' => if (c =c ".") || (c =c "[") then ([], s)
               else let '(f, r) := first_of s' in (c :: f, r)
  end.
Definition field_name (s : str) : result (str * list accessor) :=
  let '(first, rest) := first_of s in
  if match first with [] => true | _ => all_digits first end then Err IndexError
  else match accessors_from AStart rest with
       | Some accs => Ok (first, accs)
       | None => Err ValueError
       end.

(** * [Formatter().vformat(spec, (), mapping)] and [str.format( **mapping )]

    [render first accessors conversion spec] looks up, converts and formats one field. Both
    allow one level of fields inside a format spec. *)
Definition renderer := str -> list accessor -> option ascii -> str -> result str.
Fixpoint vformat_at (fuel : nat) (render : renderer) (s : str) : result str :=
  match fuel with
  | O => Err ValueError                                   (* "Max string recursion exceeded" *)
  | S n =>
      rmap (@List.concat ascii)
        (mapM (fun it => match it with
                         | ILit t => Ok t
                         | IErr => Err ValueError
                         | IField name spec conv =>
                             bind (field_name name) (fun fa =>
                             bind (vformat_at n render spec) (fun spec' =>
                             render (fst fa) (snd fa) conv spec'))
                         end) (parse_format s))
  end.
Definition vformat : renderer -> str -> result str := vformat_at 3.

(** An index made of digits is turned into an int before it is used. *)
Definition index_value (key : str) : cvalue :=
  if all_digits key then CInt (digits_value key) else CStr key.

Section Placeholders.
  (** Python's [format] on the specs not modelled in [format_value]. *)
  Context (other : cvalue -> str -> result str).

  (** FormatPlaceholder (20-33) and StripIndexPlaceholder (38-40): [_key] grows with every
      access, [__format__] puts it back in braces. *)
  Definition own_attribute (a : str) : bool := str_eqb a $"_key" || starts_with $"__" a.
  Definition key_text (keep_index : bool) (a : accessor) : str :=
    match a with
    | Attr n => "."%char :: n
    | Idx k => if keep_index
               then "["%char :: match format_value other (index_value k) [] with Ok t => t | Err _ => [] end ++ ["]"%char]
               else []
    end.
  Definition format_placeholder (keep_index : bool) : renderer := fun first accs conv spec =>
    match conv with
    | Some _ => Err (UserError 0)
    | None =>
        if existsb (fun a => match a with Attr n => own_attribute n | Idx _ => false end) accs
        then Err (UserError 0)
        else Ok ("{"%char :: first ++ flat_map (key_text keep_index) accs
                 ++ match spec with [] => [] | _ => ":"%char :: spec end ++ ["}"%char])
    end.

  (** The attributes of Python's [str]. *)
  Definition str_attribute (a : str) : bool :=
    starts_with $"__" a ||
    existsb (str_eqb a) [
      $"capitalize"; $"casefold"; $"center"; $"count"; $"encode"; $"endswith"; $"expandtabs";
      $"find"; $"format"; $"format_map"; $"index"; $"isalnum"; $"isalpha"; $"isascii";
      $"isdecimal"; $"isdigit"; $"isidentifier"; $"islower"; $"isnumeric"; $"isprintable";
      $"isspace"; $"istitle"; $"isupper"; $"join"; $"ljust"; $"lower"; $"lstrip"; $"maketrans";
      $"partition"; $"removeprefix"; $"removesuffix"; $"replace"; $"rfind"; $"rindex"; $"rjust";
      $"rpartition"; $"rsplit"; $"rstrip"; $"split"; $"splitlines"; $"startswith"; $"strip";
      $"swapcase"; $"title"; $"translate"; $"upper"; $"zfill"].
  (** Formatting a string found in the mapping. Other attributes than those of [str] raise
      AttributeError; what these are is not modelled. Indexing by an int picks a character, by
      anything else raises TypeError. *)
  Definition format_str (v : str) : list accessor -> option ascii -> str -> result str :=
    fun accs conv spec =>
      match conv, accs with
      | Some _, _ => Err (UserError 0)
      | None, [] => format_value other (CStr v) spec
      | None, [Idx k] =>
          match index_value k with
          | CInt z => match nth_error v (Z.to_nat z) with
                      | Some c => format_value other (CStr [c]) spec
                      | None => Err IndexError
                      end
          | _ => Err TypeError
          end
      | None, Attr n :: _ => if str_attribute n then Err (UserError 0) else Err AttributeError
      | None, _ => Err (UserError 0)
      end.

  (** [partial_format] (105-106): FormatDict falls back to the placeholder (101-102). *)
  Definition partial_format (spec : str) (kwargs : list (str * str)) : result str :=
    vformat (fun first => match dget str_eqb kwargs first with
                          | Some v => format_str v
                          | None => format_placeholder true first
                          end) spec.

  (** [strip_partition_indexes] (110-111) *)
  Definition strip_partition_indexes (spec : str) : result str :=
    vformat (format_placeholder false) spec.

  (** WildcardPlaceholder (43-85). [WPH attribute] is the placeholder itself, [WVal] what
      indexing returned. It has no [__format__]: a non-empty spec reaches
      [object.__format__], which raises TypeError. *)
  Inductive wobj := WPH (attribute : option str) | WVal (v : cvalue).
  Definition own_wildcard_attribute (a : str) : bool :=
    starts_with $"__" a ||
    existsb (str_eqb a) [$"_key"; $"_key_type"; $"_attribute"; $"with_key_types"; $"_err_if_no_attribute"].
  Definition waccess (cls : fclass) (o : wobj) (a : accessor) : result wobj :=
    match o, a with
    | WPH attribute, Attr n =>
        if own_wildcard_attribute n then Err (UserError 0) else
        match attribute with
        | Some _ => Err ValueError                                        (* 65-68 *)
        | None => if existsb (str_eqb n) (components cls) then Ok (WPH (Some n))
                  else Err AttributeError                                 (* 69-72 *)
        end
    | WPH (Some _), Idx k => Ok (WVal (index_value k))                    (* 76-81 *)
    | WPH None, Idx _ => Err ValueError
    | WVal _, _ => Err (UserError 0)    (* attributes or items of an int or str *)
    end.
  Definition format_wildcard (key_types : list (str * fclass)) : renderer :=
    fun first accs conv spec =>
      match dget str_eqb key_types first with
      | None => Err ValueError                                            (* 46-47 *)
      | Some cls =>
          bind (fold_left (fun o a => bind o (fun o => waccess cls o a)) accs (Ok (WPH None))) (fun o =>
          match conv with
          | Some _ => Err (UserError 0)
          | None =>
              match o with
              | WPH attribute =>
                  match spec, attribute with
                  | [], Some _ => Ok $"*"                                 (* 83-85 *)
                  | [], None => Err ValueError                            (* 57-62 *)
                  | _, _ => Err TypeError                                 (* object.__format__ *)
                  end
              | WVal v => format_value other v spec
              end
          end)
      end.

  (** [spec_to_wildcard] (114-119) *)
  Definition spec_to_wildcard (spec : str) (key_types : list (str * fclass)) : result str :=
    vformat (format_wildcard key_types) (replace $"{input_fingerprint}" $"*" spec).
End Placeholders.
