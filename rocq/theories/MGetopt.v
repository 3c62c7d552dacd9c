(** getopt_long as src/main.cpp:90-110 uses it: the option string
    "vhi:x:k:g:t:d:c:urp:m:" and the table of long options.  The C library is
    not part of /repo; this models the documented behaviour of the GNU version
    with the environment variable POSIXLY_CORRECT unset: words that are not
    options are skipped, "--" ends the options, short options may be joined,
    long names may be abbreviated, a missing argument or an unknown, ambiguous
    or unexpectedly assigned option is reported as '?'. *)
From Verif Require Import Base Arith MMain.
From Coq Require Import String Ascii.
Local Open Scope string_scope.

(** An option without and with an argument *)
Inductive shape := Flag (o : opt) | Takes (f : string -> opt).

(** src/main.cpp:108-109 with the cases at 113-166 *)
Definition short_table : list (ascii * shape) :=
  [("v", Flag OVersion); ("h", Flag OHelp); ("i", Takes OInfile); ("x", Takes ODevice);
   ("k", Takes OK); ("g", Takes OGrid); ("t", Takes OThreads); ("d", Takes ONdsize);
   ("c", Takes OChunk); ("u", Flag OUseChunk); ("r", Flag OUseRec); ("p", Takes OPmax);
   ("m", Takes OTmax)]%char.

(** src/main.cpp:90-105; the value of each entry is the letter of a case *)
Definition long_table : list (string * ascii) :=
  [("version", "v"%char); ("help", "h"%char); ("infile", "i"%char); ("use-device", "x"%char); ("k-init", "k"%char);
   ("grid-resolution", "g"%char); ("cpu-nthreads", "t"%char); ("gpu-ndsize", "d"%char); ("chunksize", "c"%char);
   ("use-chunking", "u"%char); ("use-recompute", "r"%char); ("p-maxsize", "p"%char); ("t-maxsize", "m"%char)].

Definition short_shape (c : ascii) : option shape :=
  option_map snd (find (fun e => Ascii.eqb (fst e) c) short_table).

(** The entry for a long name: the exact one, else the only one it abbreviates *)
Definition long_shape (name : string) : option shape :=
  match find (fun e => String.eqb (fst e) name) long_table with
  | Some e => short_shape (snd e)
  | None =>
      match filter (fun e => String.prefix name (fst e)) long_table with
      | [e] => short_shape (snd e)
      | _ => None
      end
  end.

(** [split_eq w]: the part of a word before the first '=' and what follows it *)
Fixpoint split_eq (w : string) : string * option string :=
  match w with
  | EmptyString => (EmptyString, None)
  | String c w' =>
      if Ascii.eqb c "="%char then (EmptyString, Some w')
      else let '(n, v) := split_eq w' in (String c n, v)
  end.

(** What a word means: options, and whether the last one waits for the next word *)
Inductive meaning := Skip | Stop | Opts (l : list opt) (wait : option (string -> opt)).

(** the letters of a word behind a single '-' *)
Fixpoint cluster (w : string) : list opt * option (string -> opt) :=
  match w with
  | EmptyString => ([], None)
  | String c w' =>
      match short_shape c with
      | None => let '(l, k) := cluster w' in (OUnknown :: l, k)
      | Some (Flag o) => let '(l, k) := cluster w' in (o :: l, k)
      | Some (Takes f) =>
          match w' with EmptyString => ([], Some f) | _ => ([f w'], None) end
      end
  end.

Definition long_word (w : string) : meaning :=
  let '(name, v) := split_eq w in
  match long_shape name, v with
  | None, _ => Opts [OUnknown] None
  | Some (Flag o), None => Opts [o] None
  | Some (Flag _), Some _ => Opts [OUnknown] None
  | Some (Takes f), Some v => Opts [f v] None
  | Some (Takes f), None => Opts [] (Some f)
  end.

Definition word (w : string) : meaning :=
  match w with
  | String "-" (String "-" EmptyString) => Stop
  | String "-" (String "-" w') => long_word w'
  | String "-" (String c w') => let '(l, k) := cluster (String c w') in Opts l k
  | _ => Skip
  end.

(** The sequence of results of getopt_long on argv[1], argv[2], ... *)
Fixpoint getopt (wait : option (string -> opt)) (argv : list string) : list opt :=
  match wait, argv with
  | None, [] => []
  | Some _, [] => [OUnknown]
  | Some f, w :: argv => f w :: getopt None argv
  | None, w :: argv =>
      match word w with
      | Skip => getopt None argv
      | Stop => []
      | Opts l k => (l ++ getopt k argv)%list
      end
  end.
Definition getopt_long (argv : list string) : list opt := getopt None argv.
