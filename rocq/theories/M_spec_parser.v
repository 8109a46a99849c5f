(** Model of /repo/specfile/spec_parser.py and of /repo/specfile/exceptions.py 11-23. *)
From Coq Require Import Ascii String.
From Coq Require Import NArith ZArith List Bool.
From Verif Require Import PyStr Regex M_constants M_value M_conditions M_tags M_evr M_macros.
Import ListNotations.
Open Scope N_scope.

(** * The world *)
(** The macro context, the files, by directory and name, with their contents, and the environment variables of the process.
    Symbolic links are not modelled. *)
Record world (W : Type) := mk_world { ctx : W; files : list ((str * str) * list N); env : list (str * str) }.
Arguments mk_world {W}. Arguments ctx {W}. Arguments files {W}. Arguments env {W}.

Definition path_eqb (p q : str * str) : bool := str_eqb (fst p) (fst q) && str_eqb (snd p) (snd q).
Fixpoint content_of (p : str * str) (l : list ((str * str) * list N)) : option (list N) :=
  match l with [] => None | (q, b) :: l' => if path_eqb p q then Some b else content_of p l' end.
Definition unlink (p : str * str) (l : list ((str * str) * list N)) : list ((str * str) * list N) := filter (fun x => negb (path_eqb p (fst x))) l.
Fixpoint get_env (k : str) (l : list (str * str)) : option str :=
  match l with [] => None | (q, v) :: l' => if str_eqb k q then Some v else get_env k l' end.
(** Setting an item of a dictionary keeps its place; a new one goes to the end. *)
Fixpoint set_env (k v : str) (l : list (str * str)) : list (str * str) :=
  match l with [] => [(k, v)] | (q, u) :: l' => if str_eqb k q then (q, v) :: l' else (q, u) :: set_env k v l' end.
Definition del_env (k : str) (l : list (str * str)) : list (str * str) := filter (fun x => negb (str_eqb k (fst x))) l.

(** What happens to an attempt to write a new file: it succeeds, it fails with an [OSError] and leaves a part of the contents or nothing
    behind, or another exception is raised. *)
Inductive attempt := Written | Refused (left : option (list N)) | Raised (e : exn).

(** spec_parser.py 125-136 *)
Definition SIGNATURES : list (str * list N) :=
  [(lit ".bz2", [66; 90; 104]); (lit ".zip", [80; 75; 48; 48]); (lit ".xz", [253; 55; 122; 88; 90; 0]); (lit ".zst", [40; 181; 47]);
   (lit ".lz", [76; 90; 73; 80]); (lit ".lrz", [76; 82; 90; 73]); (lit ".gz", [31; 139]); (lit ".7z", [55; 122; 188; 175; 39; 28]);
   (lit ".7z", [55; 122; 188; 175; 39; 28])].
(** spec_parser.py 113-119: [ljust] to 13 bytes *)
Definition padded (magic : list N) : list N := magic ++ repeat 0 (13 - length magic).
(** spec_parser.py 145-152 *)
Definition magic_bytes (filename : str) : list N :=
  match List.find (fun x => endswith filename (fst x)) SIGNATURES with Some (_, m) => padded m | None => padded [] end.
(** spec_parser.py 161 *)
Definition dummy_bytes (_ : str) : list N := lit "DUMMY".

Section Parser.
Context {U : Unicode} {W A : Type}.
(** The faults of the file system: of [exists], [write_bytes] or [write_text], and [unlink]. *)
Context (stat_fault : world W -> str * str -> option exn) (write_outcome : world W -> str * str -> list N -> attempt) (unlink_fault : world W -> str * str -> option exn).
(** The order in which a set is iterated over. *)
Context (order : list str -> list str).

(** spec_parser.py 138-152, 153-165: one of the two loops; [made] are the dummy sources so far. *)
Fixpoint fake (sourcedir : str) (contents : str -> list N) (sources : list str) (made : list (str * str)) (w : world W) : world W * list (str * str) * result unit :=
  match sources with
  | [] => (w, made, Ok tt)
  | source :: sources' =>
      let filename := get_filename_from_location source in
      match filename with
      | [] => fake sourcedir contents sources' made w
      | _ =>
          let path := (sourcedir, filename) in
          match stat_fault w path with
          | Some e => (w, made, Err e)
          | None =>
              match content_of path (files w) with
              | Some _ => fake sourcedir contents sources' made w
              | None =>
                  match write_outcome w path (contents filename) with
                  | Written => fake sourcedir contents sources' (made ++ [path]) (mk_world (ctx w) ((path, contents filename) :: files w) (env w))
                  | Refused None => fake sourcedir contents sources' made w
                  | Refused (Some b) => fake sourcedir contents sources' made (mk_world (ctx w) ((path, b) :: files w) (env w))
                  | Raised e => (w, made, Err e)
                  end
              end
          end
      end
  end.
(** spec_parser.py 169-170 *)
Fixpoint unlink_all (paths : list (str * str)) (w : world W) : world W * result unit :=
  match paths with
  | [] => (w, Ok tt)
  | p :: paths' =>
      match unlink_fault w p, content_of p (files w) with
      | Some e, _ => (w, Err e)
      | None, None => (w, Err OtherError)
      | None, Some _ => unlink_all paths' (mk_world (ctx w) (unlink p (files w)) (env w))
      end
  end.
(** spec_parser.py 92-170, around a block *)
Definition with_dummy_sources {B} (sourcedir : str) (sources non_empty_sources : list str) (body : list (str * str) -> world W -> world W * result B) (w : world W) : world W * result B :=
  match fake sourcedir magic_bytes (order sources) [] w with
  | (w, _, Err e) => (w, Err e)
  | (w, made, Ok _) =>
      match fake sourcedir dummy_bytes (order non_empty_sources) made w with
      | (w, _, Err e) => (w, Err e)
      | (w, made, Ok _) =>
          let (w, r) := body made w in
          match unlink_all made w with
          | (w, Err e) => (w, Err e)
          | (w, Ok _) => (w, r)
          end
      end
  end.

(** spec_parser.py 185-189 *)
Definition restore (old : list (str * str)) (k : str) (w : world W) : world W * result unit :=
  match get_env k old with
  | Some v => (mk_world (ctx w) (files w) (set_env k v (env w)), Ok tt)
  | None =>
      match get_env k (env w) with
      | Some _ => (mk_world (ctx w) (files w) (del_env k (env w)), Ok tt)
      | None => (w, Err KeyError)
      end
  end.
Definition LANG : str := lit "LANG".
Definition LC_ALL : str := lit "LC_ALL".
Definition UTF8 : str := lit "C.UTF-8".
(** spec_parser.py 172-197, around a block *)
Definition with_environment {B} (body : world W -> world W * result B) (w : world W) : world W * result B :=
  let old := env w in
  let (w, r) := body (mk_world (ctx w) (files w) (set_env LC_ALL UTF8 (set_env LANG UTF8 (env w)))) in
  match restore old LANG w with
  | (w, Err e) => (w, Err e)
  | (w, Ok _) =>
      match restore old LC_ALL w with
      | (w, Err e) => (w, Err e)
      | (w, Ok _) => (w, r)
      end
  end.

(** [rpm.spec] with or without [RPMSPEC_FORCE]; the temporary file; the macro context set up at lines 217-225 (see M_macros.context);
    [Macros.expand]; whether a path is in the source directory, and its name. *)
Context (rpm_spec : bool -> str -> world W -> world W * result A) (spec_sources : A -> list str).
Context (temp_fault : world W -> option exn).
Context (set_context : list (str * option str) -> str -> W -> W * result unit).
Context (expand : str -> W -> W * result str).
Context (locate : str -> world W -> str -> result (option str)).

(** [content.encode()], without [surrogateescape] *)
Definition encodable (content : str) : bool := forallb (fun c => negb ((55296 <=? c) && (c <=? 57343))) content.
Definition with_ctx (c : W) (w : world W) : world W := mk_world c (files w) (env w).
(** spec_parser.py 217-236 *)
Definition get_rpm_spec (macros : list (str * option str)) (sourcedir content : str) (force : bool) (w : world W) : world W * result A :=
  match set_context macros sourcedir (ctx w) with
  | (c, Err e) => (with_ctx c w, Err e)
  | (c, Ok _) =>
      let w := with_ctx c w in
      match temp_fault w with
      | Some e => (w, Err e)
      | None =>
          if encodable content then
            match with_environment (rpm_spec force content) w with
            | (w, Err ValueError) => (w, Err RPMException)
            | x => x
            end
          else (w, Err ValueError)
      end
  end.

(** spec_parser.py 257-260, 284-287, 298-301: expand, and add the name of a file in the source directory. *)
Definition add_source (sourcedir arg : str) (acc : list str) (w : world W) : world W * result (list str) :=
  match expand arg (ctx w) with
  | (c, Err e) => (with_ctx c w, Err e)
  | (c, Ok s) =>
      let w := with_ctx c w in
      match locate sourcedir w s with
      | Err e => (w, Err e)
      | Ok (Some name) => (w, Ok (acc ++ [name]))
      | Ok None => (w, Ok acc)
      end
  end.
Fixpoint add_sources (sourcedir : str) (args : list str) (acc : list str) (w : world W) : world W * result (list str) :=
  match args with
  | [] => (w, Ok acc)
  | a :: args' =>
      match add_source sourcedir a acc w with
      | (w, Ok acc) => add_sources sourcedir args' acc w
      | x => x
      end
  end.

(** spec_parser.py 242: group 2 is [b] *)
Definition source_ref_regex : re :=
  Seq (chr PCT) (Alt (Seq (Opt (Grp 2 (chr LBRACE))) (Seq (Star true is_cond_char) (Seq (word (lit "SOURCE")) (Seq (Plus true is_digit) (IfGrp 2 (chr RBRACE) Eps)))))
                     (Seq (word (lit "{S:")) (Seq (Plus true is_digit) (chr RBRACE)))).
(** [finditer] with that regex, whose matches are not empty: all matched texts, from left to right. *)
Fixpoint find_refs (skip : nat) (s : str) : list str :=
  match s with
  | [] => []
  | _ :: s' =>
      match skip with
      | S skip' => find_refs skip' s'
      | O =>
          match re_match source_ref_regex s with
          | Some m => let n := Nat.sub (length s) (length (rest m)) in firstn n s :: find_refs (n - 1) s'
          | None => find_refs 0 s'
          end
      end
  end.
(** spec_parser.py 250-254 *)
Definition shell_refs (nodes : list node) : list str :=
  flat_map (fun n => match n with ShellExpansion b => find_refs 0 b | _ => [] end) (flatten nodes).
(** spec_parser.py 243-260 *)
Fixpoint tags_sources (sourcedir : str) (ts : list tag) (acc : list str) (w : world W) : world W * result (list str) :=
  match ts with
  | [] => (w, Ok acc)
  | t :: ts' =>
      match expand (t_value t) (ctx w) with
      | (c, Err e) => (with_ctx c w, Err e)
      | (c, Ok (_ :: _)) => tags_sources sourcedir ts' acc (with_ctx c w)
      | (c, Ok []) =>
          let w := with_ctx c w in
          match M_value.parse (t_value t) with
          | Err e => (w, Err e)
          | Ok nodes =>
              match add_sources sourcedir (shell_refs nodes) acc w with
              | (w, Ok acc) => tags_sources sourcedir ts' acc w
              | x => x
              end
          end
      end
  end.
(** spec_parser.py 238-261 *)
Definition collect_referenced (sourcedir content : str) (w : world W) : world W * result (list str) :=
  match tags_parse (fun _ c s => let (c, r) := expand s c in (r, c)) TAG_NAMES (ctx w) (splitlines content) with
  | (Err e, c) => (with_ctx c w, Err e)
  | (Ok ts, c) => tags_sources sourcedir (ts_data ts) [] (with_ctx c w)
  end.
(** spec_parser.py 266 *)
Definition include_regex : re :=
  Seq Caret (Seq (Star true is_space) (Seq (word (lit "%include")) (Seq (Plus true is_space) (Seq (Grp 1 (Star true dot)) Dollar)))).
(** spec_parser.py 267-276: the arguments; [arg] is the one being continued. *)
Fixpoint include_args (arg : option str) (lines : list str) : list str * result unit :=
  match lines with
  | [] => ([], match arg with Some _ => Err IndexError | None => Ok tt end)
  | l :: lines' =>
      match (match arg with
             | Some a => Some (drop_last 1 a ++ l)
             | None => match re_match include_regex l with Some m => Some (group_str 1 m) | None => None end
             end) with
      | Some a => if endswith l [BSLASH] then include_args (Some a) lines' else let (args, r) := include_args None lines' in (a :: args, r)
      | None => include_args None lines'
      end
  end.
(** spec_parser.py 263-282; the arguments are expanded as they are found, before a missing continuation is noticed. *)
Definition collect_included (sourcedir content : str) (w : world W) : world W * result (list str) :=
  let (args, r) := include_args None (splitlines content) in
  match add_sources sourcedir args [] w with
  | (w, Ok acc) => (w, match r with Ok _ => Ok acc | Err e => Err e end)
  | x => x
  end.
(** spec_parser.py 284-296 *)
Definition collect_loaded (sourcedir content : str) (w : world W) : world W * result (list str) :=
  match M_value.parse content with
  | Err e => (w, Err e)
  | Ok nodes => add_sources sourcedir (flat_map (fun n => match n with BuiltinMacro name b => if str_eqb name (lit "load") then [b] else [] | _ => [] end) (flatten nodes)) [] w
  end.

(** spec_parser.py 298-330: the first parse, the list of sources, the non-empty ones, and whether the result is tainted. *)
Definition first_parse (macros : list (str * option str)) (sourcedir content : str) (force_parse : bool) (w : world W) : world W * result (list str * list str * bool) :=
  match get_rpm_spec macros sourcedir content true w with
  | (w, Ok spec) => (w, Ok (spec_sources spec, [], false))
  | (w, Err RPMException) =>
      if negb force_parse then (w, Err RPMException)
      else
        match collect_included sourcedir content w with
        | (w, Err e) => (w, Err e)
        | (w, Ok included) =>
            match collect_loaded sourcedir content w with
            | (w, Err e) => (w, Err e)
            | (w, Ok loaded) =>
                match collect_referenced sourcedir content w with
                | (w, Err e) => (w, Err e)
                | (w, Ok non_empty) =>
                    match included ++ loaded, non_empty with
                    | [], [] => (w, Err RPMException)
                    | sources, _ =>
                        with_dummy_sources sourcedir sources non_empty (fun made w =>
                          match made with
                          | [] => (w, Err RPMException)
                          | _ =>
                              match get_rpm_spec macros sourcedir content true w with
                              | (w, Ok spec) => (w, Ok (filter (fun s => negb (existsb (str_eqb s) non_empty)) (spec_sources spec), non_empty, true))
                              | (w, Err e) => (w, Err e)
                              end
                          end) w
                    end
                end
            end
        end
  | (w, Err e) => (w, Err e)
  end.
(** spec_parser.py 199-350 *)
Definition do_parse (macros : list (str * option str)) (sourcedir content : str) (force_parse : bool) (w : world W) : world W * result (A * bool) :=
  match first_parse macros sourcedir content force_parse w with
  | (w, Err e) => (w, Err e)
  | (w, Ok (sources, non_empty, tainted)) =>
      with_dummy_sources sourcedir sources non_empty (fun _ w =>
        match get_rpm_spec macros sourcedir content false w with
        | (w, Ok spec) => (w, Ok (spec, tainted))
        | (w, Err e) => (w, Err e)
        end) w
  end.
End Parser.

(** * The cache *)
(** spec_parser.py 366-373: the parameters of a parse.  Their hash is taken to be equal only for equal parameters: SHA-256 has no known
    collisions, and [pickle] maps different values to different bytes. *)
Record key := mk_key { k_id : nat; k_sourcedir : str; k_macros : list (str * option str); k_force : bool; k_content : str; k_extra : option (list (str * option str)) }.
Definition value_eqb (a b : option str) : bool := match a, b with None, None => true | Some x, Some y => str_eqb x y | _, _ => false end.
Fixpoint macros_eqb (a b : list (str * option str)) : bool :=
  match a, b with
  | [], [] => true
  | (n, v) :: a', (m, u) :: b' => str_eqb n m && value_eqb v u && macros_eqb a' b'
  | _, _ => false
  end.
Definition key_eqb (a b : key) : bool :=
  Nat.eqb (k_id a) (k_id b) && str_eqb (k_sourcedir a) (k_sourcedir b) && macros_eqb (k_macros a) (k_macros b) && Bool.eqb (k_force a) (k_force b) &&
  str_eqb (k_content a) (k_content b) && match k_extra a, k_extra b with None, None => true | Some x, Some y => macros_eqb x y | _, _ => false end.

Section Run.
Context {U : Unicode} {W A : Type}.
Context (stat_fault : world W -> str * str -> option exn) (write_outcome : world W -> str * str -> list N -> attempt) (unlink_fault : world W -> str * str -> option exn).
Context (order : list str -> list str).
Context (rpm_spec : bool -> str -> world W -> world W * result A) (spec_sources : A -> list str).
Context (temp_fault : world W -> option exn).
Context (set_context : list (str * option str) -> str -> W -> W * result unit).
Context (expand : str -> W -> W * result str).
Context (locate : str -> world W -> str -> result (option str)).
(** spec_parser.py 382: [_do_parse] as [parse] calls it (211-215: [extra_macros] come after [self.macros]) *)
Definition run_of (k : key) (w : world W) : world W * option (result (A * bool)) :=
  let (w', r) := do_parse stat_fault write_outcome unlink_fault order rpm_spec spec_sources temp_fault set_context expand locate
                   (k_macros k ++ match k_extra k with Some x => x | None => [] end) (k_sourcedir k) (k_content k) (k_force k) w in (w', Some r).
End Run.

(** spec_parser.py 50-66: a parser; [p_spec] is [None] when the attribute is deleted. *)
Record parser (A : Type) := mk_parser { p_sourcedir : str; p_macros : list (str * option str); p_force : bool; p_spec : option (option A); p_tainted : bool }.
Arguments mk_parser {A}. Arguments p_sourcedir {A}. Arguments p_macros {A}. Arguments p_force {A}. Arguments p_spec {A}. Arguments p_tainted {A}.
Definition with_spec {A} (s : option (option A)) (tainted : bool) (p : parser A) : parser A := mk_parser (p_sourcedir p) (p_macros p) (p_force p) s tainted.
(** The process: the world [G], the class attribute [_last_parse_hash] (line 48), and the parsers that exist, by their [id]. *)
Record process (G A : Type) := mk_process { p_world : G; p_last : option key; p_parsers : list (nat * parser A) }.
Arguments mk_process {G A}. Arguments p_world {G A}. Arguments p_last {G A}. Arguments p_parsers {G A}.
Fixpoint get_parser {A} (i : nat) (l : list (nat * parser A)) : option (parser A) :=
  match l with [] => None | (j, p) :: l' => if Nat.eqb i j then Some p else get_parser i l' end.
Definition set_parser {A} (i : nat) (p : parser A) (l : list (nat * parser A)) : list (nat * parser A) :=
  map (fun x => if Nat.eqb i (fst x) then (fst x, p) else x) l.

Section Cache.
Context {G A : Type}.
(** [_do_parse], which may also be interrupted by something that is not an [Exception], such as Ctrl-C: [None]. *)
Context (run : key -> G -> G * option (result (A * bool))).
Definition key_of (i : nat) (p : parser A) (content : str) (extra : option (list (str * option str))) : key :=
  mk_key i (p_sourcedir p) (p_macros p) (p_force p) content extra.
(** spec_parser.py 352-396; the outcome is [None] for an interrupt. *)
Definition parse (i : nat) (content : str) (extra : option (list (str * option str))) (s : process G A) : process G A * option (result unit) :=
  match get_parser i (p_parsers s) with
  | None => (s, Some (Err OtherError))
  | Some p =>
      let k := key_of i p content extra in
      if match p_last s with Some k' => key_eqb k k' | None => false end then (s, Some (Ok tt))
      else
        match p_spec p with
        | None => (s, Some (Err AttributeError))
        | Some old =>
            let p := with_spec (match old with Some _ => None | None => Some None end) (p_tainted p) p in
            match run k (p_world s) with
            | (g, Some (Ok (spec, tainted))) => (mk_process g (Some k) (set_parser i (with_spec (Some (Some spec)) tainted p) (p_parsers s)), Some (Ok tt))
            | (g, Some (Err RPMException)) => (mk_process g None (set_parser i (with_spec (Some None) false p) (p_parsers s)), Some (Err RPMException))
            | (g, Some (Err e)) => (mk_process g None (set_parser i p (p_parsers s)), Some (Err e))
            | (g, None) => (mk_process g (p_last s) (set_parser i p (p_parsers s)), None)
            end
        end
  end.
(** What can happen in a process.  [New] (50-66) and [Copy] (81-90) allocate an object with an [id] that no living parser has; [Set_] changes the
    parameters of a parser through its attributes; [Other] is anything else that changes the world. *)
Inductive event :=
| New (i : nat) (sourcedir : str) (macros : list (str * option str)) (force : bool)
| Copy (i j : nat)
| Drop (i : nat)
| Set_ (i : nat) (sourcedir : str) (macros : list (str * option str)) (force : bool)
| Parse (i : nat) (content : str) (extra : option (list (str * option str)))
| Other (f : G -> G).
Definition step (e : event) (s : process G A) : process G A :=
  match e with
  | New i d m f => mk_process (p_world s) None ((i, mk_parser d m f (Some None) false) :: p_parsers s)
  | Copy i j =>
      match get_parser i (p_parsers s) with
      | Some p => mk_process (p_world s) (p_last s) ((j, with_spec (Some None) false p) :: p_parsers s)
      | None => s
      end
  | Drop i => mk_process (p_world s) (p_last s) (filter (fun x => negb (Nat.eqb i (fst x))) (p_parsers s))
  | Set_ i d m f =>
      match get_parser i (p_parsers s) with
      | Some p => mk_process (p_world s) (p_last s) (set_parser i (mk_parser d m f (p_spec p) (p_tainted p)) (p_parsers s))
      | None => s
      end
  | Parse i content extra => fst (parse i content extra s)
  | Other f => mk_process (f (p_world s)) (p_last s) (p_parsers s)
  end.
Definition steps (es : list event) (s : process G A) : process G A := fold_left (fun s e => step e s) es s.
End Cache.

(** * Exceptions *)
(** exceptions.py 19-23.  [line.split("error: ")[1]]: the text between the first and the second occurrence; an [IndexError] if there is none. *)
Fixpoint before (p s : str) : str :=
  match s with [] => [] | c :: s' => if startswith s p then [] else c :: before p s' end.
Fixpoint after (p s : str) : option str :=
  match strip_prefix p s with
  | Some t => Some t
  | None => match s with [] => None | _ :: s' => after p s' end
  end.
Fixpoint exception_str (stderr : list str) : option (result str) :=
  match stderr with
  | [] => None
  | l :: stderr' =>
      let line := rstrip l in
      if startswith line (lit "error:") then
        Some (match after (lit "error: ") line with Some t => Ok (before (lit "error: ") t) | None => Err IndexError end)
      else exception_str stderr'
  end.
Definition rpm_exception_str (stderr : list str) : result str :=
  match exception_str stderr with Some r => r | None => Ok (LF :: concat stderr) end.
