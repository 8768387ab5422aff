(** * Update of the hash files: cdtb/hashes.py:88-110, cdtb/__main__.py:91-114 *)

From Coq Require Import QArith_base.
From Verif Require Import Base.Py Base.Text Base.Fs Model.Files Model.Hashes Model.Cli.
Local Open Scope N_scope.

(** ** Dates of headers: [datetime.strptime(s, '%a, %d %b %Y %H:%M:%S GMT')], for an ASCII text *)

Definition weekday_names : list str := [lit "mon"; lit "tue"; lit "wed"; lit "thu"; lit "fri"; lit "sat"; lit "sun"].
Definition month_names : list str := [lit "jan"; lit "feb"; lit "mar"; lit "apr"; lit "may"; lit "jun"; lit "jul"; lit "aug"; lit "sep"; lit "oct"; lit "nov"; lit "dec"].
Fixpoint index_of (x : str) (l : list str) (i : Z) : result Z :=
  match l with [] => Err ValueError | y :: t => if eqb x y then Ok i else index_of x t (i + 1)%Z end.
(** The literal parts; letters in any case. *)
Definition p_lit (p s : str) : result str := if startswith (lower s) p then Ok (dropN (lenN p) s) else Err ValueError.
(** [\s+] *)
Definition p_spaces (s : str) : result str := match s with c :: t => if is_space c then Ok (lstrip is_space t) else Err ValueError | [] => Err ValueError end.
(** One of the names of three letters. *)
Definition p_name (l : list str) (s : str) : result (Z * str) := let! i := index_of (lower (takeN 3 s)) l 0%Z in Ok (i, dropN 3 s).
(** As the text which follows never starts with a digit, a number is made of all digits. *)
Fixpoint p_digits (s : str) : str * str :=
  match s with c :: t => if is_digit c then let (d, r) := p_digits t in (c :: d, r) else ([], s) | [] => ([], []) end.
Definition p_number (lens : list N) (lo hi : Z) (s : str) : result (Z * str) :=
  let (d, r) := p_digits s in
  let v := Z.of_N (undigits 10 (map (fun c => c - 48) d)) in
  if mem (lenN d) lens && (lo <=? v)%Z && (v <=? hi)%Z then Ok (v, r) else Err ValueError.

(** [datetime] (CPython Lib/_pydatetime.py): [_is_leap], [_days_in_month], [_days_before_year], [_days_before_month], [_ymd2ord]. *)
Definition is_leap (y : Z) : bool := ((y mod 4 =? 0) && (negb (y mod 100 =? 0) || (y mod 400 =? 0)))%Z.
Definition days_in_month (y m : Z) : Z :=
  if ((m =? 2) && is_leap y)%Z then 29%Z else nth (Z.to_nat (m - 1)) [31; 28; 31; 30; 31; 30; 31; 31; 30; 31; 30; 31]%Z 0%Z.
Definition days_before_year (y : Z) : Z := let y := (y - 1)%Z in (y * 365 + y / 4 - y / 100 + y / 400)%Z.
Definition days_before_month (y m : Z) : Z :=
  (nth (Z.to_nat (m - 1)) [0; 31; 59; 90; 120; 151; 181; 212; 243; 273; 304; 334] 0 + (if (2 <? m) && is_leap y then 1 else 0))%Z.
Definition ordinal (y m d : Z) : Z := (days_before_year y + days_before_month y m + d)%Z.
(** [.replace(tzinfo=utc).timestamp()] of a valid date; an integer as a float. *)
Definition timestamp (y m d hh mi ss : Z) : Z := ((ordinal y m d - ordinal 1970 1 1) * 86400 + hh * 3600 + mi * 60 + ss)%Z.

Definition http_date (s : str) : result Z :=
  let! (_, s) := p_name weekday_names s in
  let! s := p_lit (lit ",") s in
  let! s := p_spaces s in
  let! (d, s) := p_number [1; 2] 1 31 s in
  let! s := p_spaces s in
  let! (m, s) := p_name month_names s in
  let m := (m + 1)%Z in
  let! s := p_spaces s in
  let! (y, s) := p_number [4] 0 9999 s in
  let! s := p_spaces s in
  let! (hh, s) := p_number [1; 2] 0 23 s in
  let! s := p_lit (lit ":") s in
  let! (mi, s) := p_number [1; 2] 0 59 s in
  let! s := p_lit (lit ":") s in
  let! (ss, s) := p_number [1; 2] 0 61 s in
  let! s := p_spaces s in
  let! s := p_lit (lit "gmt") s in
  match s with
  | _ :: _ => Err ValueError
  | [] => if ((1 <=? y) && (d <=? days_in_month y m) && (ss <=? 59))%Z then Ok (timestamp y m d hh mi ss) else Err ValueError
  end.

(** ** Files *)

(** [str(path)] *)
Definition ptext (p : ppath) : str := match pp_root p ++ join (lit "/") (pp_parts p) with [] => lit "." | s => s end.

Section Fetch.
  Variable cwd : path.
  (** [default_hash_dir] *)
  Variable dir : ppath.
  (** [st_mtime] of a hash file *)
  Variable mtime : str -> Q.
  (** The header "last-modified" of the response to HEAD, and the content of the response to GET; or an exception. *)
  Variable head : str -> result str.
  Variable get : str -> result bytes.

  Definition hash_path (name : str) : str := ptext (pdiv dir name).
  Definition hash_url (name : str) : str := lit "https://raw.communitydragon.org/data/hashes/lol/" ++ name.
  (** [path.stat()] *)
  Definition stat (s : str) : prog unit :=
    sys (fun f => let! p := locate cwd f true s in match look f p with Some _ => Ok (tt, f) | None => Err (OSError ENOENT) end).
  (** hashes.py:88-110 [update_default_hashfile] *)
  Definition update_hashfile (name : str) : prog unit :=
    let~ uptodate :=
      catch (let~ _ := stat (hash_path name) in
             let~ h := lift (head (hash_url name)) in
             let~ t := lift (http_date h) in
             Ret (Qle_bool (inject_Z t) (mtime name)))
            (fun e => match e with OSError ENOENT => Ret false | _ => Rai e end) in
    if uptodate : bool then Ret tt
    else
      let~ data := lift (get (hash_url name)) in
      write_file_or_remove cwd (hash_path name) (fun h => fwrite h data).

  (** [Path.mkdir(parents=True, exist_ok=True)]: CPython Lib/pathlib.py.  [r] are the parts, innermost first. *)
  Definition mkdir_at (start : path) (r : list str) : prog unit := sys (create_at NDir (start, rev r)).
  Definition dir_exists_ok (start : path) (r : list str) (e : exn) : prog unit :=
    if is_oserror e then let~ d := query (loc_isdir (start, rev r)) in if d : bool then Ret tt else Rai e else Rai e.
  Fixpoint path_mkdir (start : path) (r : list str) : prog unit :=
    catch (mkdir_at start r) (fun e =>
      match e with
      | OSError ENOENT =>
        match r with
        | [] => Rai e
        | _ :: t =>
          let~ _ := path_mkdir start t in
          catch (mkdir_at start r) (fun e => match e with OSError ENOENT => Rai e | _ => dir_exists_ok start r e end)
        end
      | _ => dir_exists_ok start r e
      end).

  Definition hash_names : list str := [
    lit "hashes.binentries.txt"; lit "hashes.binfields.txt"; lit "hashes.binhashes.txt"; lit "hashes.bintypes.txt"; lit "hashes.game.txt";
    lit "hashes.lcu.txt"; lit "hashes.rst.txt"; lit "hashes.rst.xxh64.txt"; lit "hashes.rst.xxh3.txt" ].
  (** __main__.py:91-114 [command_fetch_hashes]; [src] is the directory of the source. *)
  Definition fetch_hashes (src : ppath) : prog unit :=
    if eqb (pp_root dir) (pp_root src) && eqb (pp_parts dir) (pp_parts src) then Rai SysExit
    else
      let~ _ := path_mkdir (if is_absolute dir then [] else cwd) (rev (pp_parts dir)) in
      for_each hash_names update_hashfile.
End Fetch.
