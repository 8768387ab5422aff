(** * Specification of the search of translation files *)

From Verif Require Import Base.Py Base.Text Base.Fs Spec.FsSpec.

(** Language codes: five characters, the middle one being an underscore. *)
Definition code (l : str) : Prop := exists a b c d, l = [a; b; cUnder; c; d] /\ ~ In cSlash l.
(** No backslash, no end of line, and not the name of a hidden file. *)
Definition regular_code (l : str) : Prop := ~ In 92 l /\ ~ In cNL l /\ hd 0 l <> cDot.

(** The places of the file of a language, from the newest to the oldest. *)
Definition places (game : str) : list (str -> str) :=
  [(fun l => l ++ lit "/data/menu/en_us/" ++ game ++ lit ".stringtable");
   (fun l => l ++ lit "/data/menu/en_us/main.stringtable");
   (fun l => lit "data/menu/main_" ++ l ++ lit ".stringtable");
   (fun l => lit "data/menu/fontconfig_" ++ l ++ lit ".txt")].

Section Spec.
  Variable cwd : path.
  Variable f : fs.
  Variable base : str.

  (** Something is at this path below the base directory. *)
  Definition present (s : str) : Prop := exists p, locate cwd f false (base ++ cSlash :: s) = Ok p /\ look f p <> None.

  (** A directory tree in which the search is sensible: all file names are valid ones, and those of languages regular. *)
  Definition searchable (game : str) : Prop :=
    fs_wf f /\ look f cwd = Some NDir /\ (forall x p, look f (x :: p) <> None -> valid_name x)
    /\ forall place l, In place (places game) -> code l -> present (place l) -> regular_code l.
  (** Characters without a meaning in patterns. *)
  Definition not_pattern (s : str) : Prop := ~ In 42 s /\ ~ In 63 s /\ ~ In 91 s.
  (** The text of a directory. *)
  Definition dir_text (s : str) : Prop := exists r x, s = r ++ [x] /\ x <> cSlash.

  (** The files of one place. *)
  Definition files_of (place : str -> str) (d : list (str * str)) : Prop :=
    NoDup (dkeys d) /\ forall l p, In (l, p) d <-> code l /\ present (place l) /\ p = base ++ cSlash :: place l.
  Definition none_at (place : str -> str) : Prop := forall l, code l -> ~ present (place l).
End Spec.
