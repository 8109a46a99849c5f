(** Model of the text of changelogs, /repo/specfile/changelog.py 78-79 and 226-227. *)
From Coq Require Import NArith List.
From Verif Require Import PyStr M_changelog.
Import ListNotations.
Open Scope N_scope.

(** changelog.py 78-79: [ChangelogEntry.__str__] *)
Definition entry_str (e : entry) : str := header e ++ [LF] ++ join [LF] (content e) ++ [LF].
(** changelog.py 226-227: [Changelog.__str__] *)
Definition changelog_str (c : changelog) : str := join [LF] (map entry_str (rev (entries c))).
