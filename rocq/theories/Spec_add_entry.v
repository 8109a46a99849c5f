(** Independent specification of adding a changelog entry. *)
From Coq Require Import Ascii String.
From Coq Require Import NArith ZArith List Bool.
From Verif Require Import PyStr M_sections M_changelog M_release Spec_changelog M_add_entry.
Import ListNotations.
Open Scope N_scope.

(** [after] is [before] with the header and the lines of an entry, and a blank line if other entries follow, inserted in front of the first entry. *)
Definition inserted (h : str) (entry before after : list str) : Prop :=
  exists a b, before = a ++ b /\ Forall (fun l => ~ header_line l) a /\
    (b = [] /\ after = a ++ h :: entry \/ (exists l r, b = l :: r /\ header_line l) /\ after = a ++ h :: entry ++ [] :: b).
(** The names of days and months in headers *)
Definition day_names : list str := [lit "Mon"; lit "Tue"; lit "Wed"; lit "Thu"; lit "Fri"; lit "Sat"; lit "Sun"].
Definition month_names : list str :=
  [lit "Jan"; lit "Feb"; lit "Mar"; lit "Apr"; lit "May"; lit "Jun"; lit "Jul"; lit "Aug"; lit "Sep"; lit "Oct"; lit "Nov"; lit "Dec"].
(** The header of an entry: "* Www Mmm", the day with its padding, the time if there is one, the year, the author and the EVR. *)
Definition header_text (ts : timestamp) (padding author evr : str) : str :=
  lit "* " ++ nth (t_weekday ts) day_names [] ++ [SPC] ++ nth (t_month ts - 1) month_names [] ++ [SPC] ++
  (if endswith padding [ZERO] then removelast padding ++ dec_pad 2 (t_day ts) else padding ++ dec (t_day ts)) ++
  match t_time ts with
  | Some (hh, mm, ss, tz) => [SPC] ++ dec_pad 2 hh ++ [COLON] ++ dec_pad 2 mm ++ [COLON] ++ dec_pad 2 ss ++ [SPC] ++ tz
  | None => []
  end ++ [SPC] ++ dec_pad 4 (t_year ts) ++ [SPC] ++ author ++ lit " - " ++ evr.

(** "Name <e-mail>", or the one that there is *)
Definition address (name email : str) : str := match name, email with [], _ => email | _, [] => name | _, _ => name ++ lit " <" ++ email ++ lit ">" end.
(** The author that is found: $RPM_PACKAGER, even if it is empty; otherwise the macro %packager; otherwise the user of git, with the
    name of the account if git knows no name. *)
Inductive found (g : surroundings) : str -> Prop :=
| found_env p : rpm_packager g = Some p -> found g p
| found_macro : rpm_packager g = None -> packager_macro g <> lit "%packager" -> found g (packager_macro g)
| found_git name email : rpm_packager g = None -> packager_macro g = lit "%packager" -> known_name g name -> known_email g email -> found g (address name email)
with known_name (g : surroundings) : str -> Prop :=
| name_git e n : git g = Some (e, n) -> strip n <> [] -> known_name g (strip n)
| name_gecos : (forall e n, git g = Some (e, n) -> strip n = []) -> gecos g <> [] -> known_name g (gecos g)
| name_user : (forall e n, git g = Some (e, n) -> strip n = []) -> gecos g = [] -> known_name g (username g)
with known_email (g : surroundings) : str -> Prop :=
| email_git e n : git g = Some (e, n) -> known_email g (strip e)
| email_none : git g = None -> known_email g [].
(** All lines are still there, in order. *)
Inductive kept : list str -> list str -> Prop :=
| kept_nil : kept [] []
| kept_line l a b : kept a b -> kept (l :: a) (l :: b)
| kept_new l a b : kept a b -> kept a (l :: b).

Section Uni.
Context {U : Unicode}.
(** A changelog that is written by hand. *)
Definition manual (s : section) : Prop := s_nid s = lit "changelog" /\ contains_autochangelog (s_data s) = Ok false.
(** Only the contents of manual changelogs change: they receive an entry, with a header of which [good] holds. *)
Definition extended_by (good : section -> str -> Prop) (entry : list str) (s s' : section) : Prop :=
  (manual s -> exists h d, good s h /\ s' = with_data d s /\ inserted h entry (s_data s) d) /\ (~ manual s -> s' = s).
(** It can be told of all changelogs whether they are automatic. *)
Definition examined (s : section) : Prop := s_nid s = lit "changelog" -> exists b, contains_autochangelog (s_data s) = Ok b.
(** At most one changelog is manual. *)
Definition at_most_one (secs : list section) : Prop := forall x s1 y s2 z, secs = x ++ s1 :: y ++ s2 :: z -> manual s1 -> ~ manual s2.
(** The first manual changelog, and whether its newest entry has the time of day. *)
Definition first_manual (secs : list section) (s : section) : Prop := exists x y, secs = x ++ s :: y /\ manual s /\ Forall (fun s => ~ manual s) x.
Definition newest_extended (s : section) : bool := match rev (entries (parse (s_data s))) with e :: _ => extended_timestamp e | [] => false end.
(** The author in the header, given the author and e-mail that were passed and the one that is guessed. *)
Inductive signed (guess : str) : option str -> option str -> str -> Prop :=
| signed_author a : signed guess (Some a) None a
| signed_both a e : signed guess (Some a) (Some e) (a ++ lit " <" ++ e ++ lit ">")
| signed_neither : guess <> [] -> signed guess None None guess.
(** The padding of the day of month for a changelog: "0" when there is no entry, otherwise that of the newest of the entries with the longest one. *)
Definition chosen_padding (c : changelog) (p : str) : Prop :=
  entries c = [] /\ p = [ZERO] \/
  exists older e newer, entries c = older ++ e :: newer /\ p = day_of_month_padding e /\
    Forall (fun x => (length (day_of_month_padding x) <= length p)%nat) older /\ Forall (fun x => (length (day_of_month_padding x) < length p)%nat) newer.
(** The header has the padding for the section, and some, or given, date, author and EVR. *)
Definition made (s : section) (h : str) : Prop := exists ts p a v, chosen_padding (parse (s_data s)) p /\ h = header_text ts p a v.
Definition made_with (ts : timestamp) (a v : str) (s : section) (h : str) : Prop := exists p, chosen_padding (parse (s_data s)) p /\ h = header_text ts p a v.
End Uni.
