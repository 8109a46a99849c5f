(** Independent specification of the options that sections take: the letters, with a colon after those that take an argument. *)
From Coq Require Import Ascii String.
From Coq Require Import NArith ZArith List Bool.
From Verif Require Import PyStr.
Import ListNotations.
Open Scope N_scope.

Definition options_table : list (str * str) := List.map (fun p => (lit (fst p), lit (snd p)))
  [("description", "n:l:"); ("files", "n:f:"); ("package", "n:"); ("sepolicy", "n:");
   ("filetrigger", "n:f:p:P:eq"); ("filetriggerin", "n:f:p:P:eq"); ("filetriggerpostun", "n:f:p:P:eq"); ("filetriggerun", "n:f:p:P:eq");
   ("post", "n:f:p:P:eq"); ("posttrans", "n:f:p:P:eq"); ("postun", "n:f:p:P:eq"); ("postuntrans", "n:f:p:P:eq");
   ("pre", "n:f:p:P:eq"); ("pretrans", "n:f:p:P:eq"); ("preun", "n:f:p:P:eq"); ("preuntrans", "n:f:p:P:eq");
   ("transfiletrigger", "n:f:p:P:eq"); ("transfiletriggerin", "n:f:p:P:eq"); ("transfiletriggerpostun", "n:f:p:P:eq"); ("transfiletriggerun", "n:f:p:P:eq");
   ("trigger", "n:f:p:P:eq"); ("triggerin", "n:f:p:P:eq"); ("triggerpostun", "n:f:p:P:eq"); ("triggerprein", "n:f:p:P:eq"); ("triggerun", "n:f:p:P:eq");
   ("verifyscript", "n:f:p:P:eq")]%string.
