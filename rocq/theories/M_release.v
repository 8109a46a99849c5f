(** Model of the release string handling of /repo/specfile/specfile.py (429-477, 622-655, 993-1021). *)
From Coq Require Import Ascii String.
From Coq Require Import NArith ZArith List Bool.
From Verif Require Import PyStr Regex M_value.
Import ListNotations.
Open Scope N_scope.

Section Uni.
Context {U : Unicode}.
(** specfile.py 635: groups 1 the dist macro, 2 [m], 3 and 4 the minor bump. *)
Definition dist_regex : re :=
  Seq (Grp 1 (Seq (chr PCT) (Seq (Opt (Grp 2 (Seq (chr LBRACE) (Opt (chr QUESTION)))))
                            (Seq (word (lit "dist")) (IfGrp 2 (chr RBRACE) Eps)))))
  (Seq (Opt (Grp 3 (Seq (chr DOT) (Grp 4 (Plus true is_digit))))) Dollar).
(** specfile.py 622-639.  The pattern ends with [$], so [re.split] splits at most once.  [int] of a run of digits
    does not fail (Python's limit of 4300 digits is not modelled). *)
Definition split_raw_release (raw : str) : str * option str * option N :=
  match re_split1 dist_regex raw with
  | None => (raw, None, None)
  | Some (release, m) =>
      (release, Some (group_str 1 m), match group_str 4 m with [] => None | d => int_of_str d end)
  end.
(** specfile.py 657-660: the getter of [release]. *)
Definition release_of (raw : str) : str := fst (fst (split_raw_release raw)).
(** specfile.py 641-655; also the setter (662-664). *)
Definition get_updated_release (raw release : str) : str :=
  release ++ match snd (fst (split_raw_release raw)) with Some d => d | None => [] end.

(** specfile.py 1004-1007: groups 1 [func], 2 [pre], 3 [rel], 4 [post]. *)
Definition bump_regex : re :=
  Seq Caret
  (Seq (Opt (Grp 1 (Seq (word (lit "%release_func")) (Plus true is_space))))
  (Seq (Opt (Grp 2 (word (lit "0."))))
  (Seq (Grp 3 (Plus true is_digit))
  (Seq (Grp 4 (Star true dot)) Dollar)))).
(** specfile.py 1018: groups 1 [pre], 2 [rel]. *)
Definition minor_regex : re :=
  Seq Caret (Seq (Grp 1 (Seq (Plus true dot) (chr DOT))) (Seq (Grp 2 (Plus true is_digit)) Dollar)).
(** [str(int(digits) + 1)] *)
Definition incremented (digits : str) : str :=
  match int_of_str digits with Some n => dec (n + 1) | None => [] end.
(** specfile.py 993-1021 *)
Definition bump_release_string (s : str) : str :=
  let second :=
    match re_match minor_regex s with
    | Some m => group_str 1 m ++ incremented (group_str 2 m)
    | None => s ++ lit ".1"
    end in
  match re_match bump_regex s with
  | Some m =>
      if negb (str_eqb (group_str 2 m) [])
         || forallb (fun x => negb (is_substring x (group_str 4 m))) [lit "alpha"; lit "beta"; lit "rc"]
      then group_str 1 m ++ group_str 2 m ++ incremented (group_str 3 m) ++ group_str 4 m
      else second
  | None => second
  end.

(** specfile.py 432-437, 458-462 *)
Definition refers_to (name : str) (nodes : list node) : bool :=
  existsb (fun n => match n with
                    | MacroSubstitution _ x | EnclosedMacroSubstitution _ x _ => str_eqb x name
                    | _ => false
                    end) (flatten nodes).
(** specfile.py 429-438 *)
Definition has_autorelease (raw : str) : result bool :=
  let! nodes := parse raw in Ok (refers_to (lit "autorelease") nodes).
(** specfile.py 440-467; only UnterminatedMacroException is caught. *)
Fixpoint contains_autochangelog (section : list str) : result bool :=
  match section with
  | [] => Ok false
  | line :: lines =>
      if startswith (lstrip line) [HASH] then contains_autochangelog lines
      else
        match parse line with
        | Ok nodes => if refers_to (lit "autochangelog") nodes then Ok true else contains_autochangelog lines
        | Err UnterminatedMacroException => contains_autochangelog lines
        | Err e => Err e
        end
  end.
End Uni.
