(** The command line as a user writes it, and what the streams should show;
    independent of how the program processes them. *)
From Verif Require Import Base Arith MTess MMain MConsole.
From Coq Require Import String Ascii.
Local Open Scope string_scope.

(** what an option asks for *)
Inductive asks := Alone (o : opt) | With (f : string -> opt).

(** letter, long name, request *)
Definition accepted : list (ascii * string * asks) :=
  [("h"%char, "help", Alone OHelp); ("v"%char, "version", Alone OVersion);
   ("i"%char, "infile", With OInfile); ("k"%char, "k-init", With OK);
   ("g"%char, "grid-resolution", With OGrid); ("t"%char, "cpu-nthreads", With OThreads);
   ("d"%char, "gpu-ndsize", With ONdsize); ("c"%char, "chunksize", With OChunk);
   ("u"%char, "use-chunking", Alone OUseChunk); ("r"%char, "use-recompute", Alone OUseRec);
   ("p"%char, "p-maxsize", With OPmax); ("m"%char, "t-maxsize", With OTmax);
   ("x"%char, "use-device", With ODevice)].
(** the table the help text shows (src/main.cpp:40-52) *)
Definition documented : list (ascii * string * asks) :=
  map (fun '(c, n, a) => (c, if Ascii.eqb c "g" then "gridres" else n, a)) accepted.
(** how a line of the help text starts *)
Definition help_start (e : ascii * string * asks) : string :=
  let '(c, n, _) := e in " -" ++ String c (", --" ++ n ++ " ").

(** the start of exactly one of the names *)
Definition abbreviates (s n : string) : Prop :=
  prefix s n = true /\ forall c' n' a', In (c', n', a') accepted -> prefix s n' = true -> n' = n.

(** letters of options without argument, written behind one another *)
Inductive letters : list opt -> string -> Prop :=
| letters_nil : letters [] ""
| letters_cons c n o os s : In (c, n, Alone o) accepted -> letters os s -> letters (o :: os) (String c s).

(** [spells os ws]: the words [ws] ask for the options [os] *)
Inductive spells : list opt -> list string -> Prop :=
| sp_letters os s : letters os s -> s <> "" -> spells os ["-" ++ s]
| sp_separate os s c n f v : letters os s -> In (c, n, With f) accepted ->
    spells (os ++ [f v])%list ["-" ++ s ++ String c ""; v]
| sp_joined os s c n f v : letters os s -> In (c, n, With f) accepted -> v <> "" ->
    spells (os ++ [f v])%list ["-" ++ s ++ String c v]
| sp_long c n o s : In (c, n, Alone o) accepted -> abbreviates s n -> spells [o] ["--" ++ s]
| sp_long_separate c n f s v : In (c, n, With f) accepted -> abbreviates s n ->
    spells [f v] ["--" ++ s; v]
| sp_long_joined c n f s v : In (c, n, With f) accepted -> abbreviates s n ->
    spells [f v] ["--" ++ s ++ "=" ++ v]
| sp_other w : prefix "-" w = false -> spells [] [w]
| sp_dash : spells [] ["-"].
Inductive command_line : list opt -> list string -> Prop :=
| cl_nil : command_line [] []
| cl_end ws : command_line [] ("--" :: ws)
| cl_cons os ws os' ws' : spells os ws -> command_line os' ws' -> command_line (os ++ os') (ws ++ ws').

(** ** every other line *)
(** letters behind one another; the ones that are not options are reported *)
Inductive typed : list opt -> string -> Prop :=
| typed_nil : typed [] ""
| typed_flag c n o os s : In (c, n, Alone o) accepted -> typed os s -> typed (o :: os) (String c s)
| typed_bad c os s : (forall n a, ~ In (c, n, a) accepted) -> typed os s -> typed (OUnknown :: os) (String c s).
(** no dash: "-" followed by [s] is not a long option *)
Definition undashed (s : string) : Prop := s <> "" /\ prefix "-" s = false.
(** [s] has no '=' *)
Definition bare (s : string) : Prop := forall s1 s2, s <> s1 ++ String "=" s2.
(** the start of no name or of several names *)
Definition no_name (s : string) : Prop := s <> "" /\ bare s /\ forall c n a, In (c, n, a) accepted -> ~ abbreviates s n.

(** words with mistakes in them: one report for each *)
Inductive misspells : list opt -> list string -> Prop :=
| ms_letters os s : typed os s -> undashed s -> misspells os ["-" ++ s]
| ms_separate os s c n f v : typed os s -> In (c, n, With f) accepted -> undashed (s ++ String c "") ->
    misspells (os ++ [f v])%list ["-" ++ s ++ String c ""; v]
| ms_joined os s c n f v : typed os s -> In (c, n, With f) accepted -> undashed (s ++ String c v) -> v <> "" ->
    misspells (os ++ [f v])%list ["-" ++ s ++ String c v]
| ms_name s : no_name s -> misspells [OUnknown] ["--" ++ s]
| ms_name_value s v : bare s -> (forall c n a, In (c, n, a) accepted -> ~ abbreviates s n) -> misspells [OUnknown] ["--" ++ s ++ "=" ++ v]
| ms_unexpected c n o s v : In (c, n, Alone o) accepted -> abbreviates s n -> misspells [OUnknown] ["--" ++ s ++ "=" ++ v].
(** a last word that lacks its argument *)
Inductive incomplete : list opt -> string -> Prop :=
| ic_letter os s c n f : typed os s -> In (c, n, With f) accepted -> undashed (s ++ String c "") ->
    incomplete (os ++ [OUnknown])%list ("-" ++ s ++ String c "")
| ic_long c n f s : In (c, n, With f) accepted -> abbreviates s n -> incomplete [OUnknown] ("--" ++ s).
(** [any_line os ws]: what any list of words says *)
Inductive any_line : list opt -> list string -> Prop :=
| al_nil : any_line [] []
| al_end ws : any_line [] ("--" :: ws)
| al_last os w : incomplete os w -> any_line os [w]
| al_cons os ws os' ws' : spells os ws \/ misspells os ws -> any_line os' ws' -> any_line (os ++ os') (ws ++ ws').

(** [t] starts with [s] *)
Definition starts (s t : string) : Prop := exists r, t = s ++ r.

(** the notice that there is no device, in bold yellow *)
Definition no_device : string :=
  String "027" ("[1m" ++ String "027" ("[93mWarning: No GPU device found. Running CPU as fallback" ++ String "027" ("[0m" ++ String "010" ""))).
Definition fallback (present : bool) (dev : device) : string :=
  match dev with gpu => if present then "" else no_device | cpu => "" end.
(** options that write nothing *)
Definition tame (o : opt) : Prop := match o with OHelp | OUnknown => False | ODevice d => d = "cpu" \/ d = "gpu" | _ => True end.
