(** * Strings, file names and paths: CommonMini.cpp

    Strings are lists of characters.  [size_t] positions are represented by the part of the string that
    follows them; [npos] is [None].  CM = EnvironmentSimulator/Modules/CommonMini. *)
From Coq Require Import List Ascii Arith Bool.
Import ListNotations.

Definition str := list ascii.

(** [operator==] of std::string (used at CM/CommonMini.cpp:273, 1445, 1453, 1456). *)
Fixpoint str_eqb (a b : str) : bool :=
  match a, b with
  | [], [] => true
  | x :: a', y :: b' => Ascii.eqb x y && str_eqb a' b'
  | _, _ => false
  end.

(** std::string::find of one character in the rest of the string, as called at CM/CommonMini.cpp:1159 and
    (find_first_of) 1181 and 1188. *)
Fixpoint find_char (c : ascii) (l : str) : option nat :=
  match l with
  | [] => None
  | x :: r => if Ascii.eqb x c then Some 0 else option_map S (find_char c r)
  end.

(** The loop of SplitString, CM/CommonMini.cpp:1159-1166; [rest] is the string from position [start]. *)
Fixpoint split_loop (fuel : nat) (delim : ascii) (rest : str) : option (list str) :=
  match fuel with
  | O => None
  | S n =>
      match find_char delim rest with
      | Some e => option_map (cons (firstn e rest)) (split_loop n delim (skipn (S e) rest))
      | None => Some [rest]
      end
  end.

(** SplitString, CM/CommonMini.cpp:1150-1169. *)
Definition SplitString (s : str) (delim : ascii) : option (list str) :=
  match s with
  | [] => Some []
  | _ => split_loop (S (length s)) delim s
  end.

(** Double quote character, CM/CommonMini.cpp:1181. *)
Definition quote : ascii := "034"%char.

(** The loop of SplitQuotedString, CM/CommonMini.cpp:1179-1197; [rest] is the string from [pos + 1].  The
    conversion of [nextPos] to int is exact for strings shorter than 2^31. *)
Fixpoint quoted_loop (fuel : nat) (delim : ascii) (rest : str) : option (list str) :=
  match fuel with
  | O => None
  | S n =>
      match find_char quote rest with
      | None => SplitString rest delim
      | Some q =>
          let after := skipn (S q) rest in
          match find_char quote after with
          | None => SplitString after delim
          | Some e => option_map (cons (firstn e after)) (quoted_loop n delim (skipn (S e) after))
          end
      end
  end.

(** SplitQuotedString, CM/CommonMini.cpp:1171-1198. *)
Definition SplitQuotedString (s : str) (delim : ascii) : option (list str) :=
  match s with
  | [] => Some []
  | _ => quoted_loop (S (length s)) delim s
  end.

(** Characters used by the path functions, CM/CommonMini.cpp:1422 and 1428. *)
Definition slash : ascii := "/"%char.
Definition backslash : ascii := "\"%char.
Definition dot : ascii := "."%char.
Definition colon : ascii := ":"%char.

(** std::getline(ss, segment, '/') until it fails, CM/CommonMini.cpp:1443: an empty rest at the end of the
    stream yields no further segment. *)
Fixpoint getlines (fuel : nat) (delim : ascii) (rest : str) : option (list str) :=
  match fuel with
  | O => None
  | S n =>
      match rest with
      | [] => Some []
      | _ =>
          match find_char delim rest with
          | Some e => option_map (cons (firstn e rest)) (getlines n delim (skipn (S e) rest))
          | None => Some [rest]
          end
      end
  end.

(** Conversion of backslashes, CM/CommonMini.cpp:1425-1432. *)
Definition unify (s : str) : str := map (fun c => if Ascii.eqb c backslash then slash else c) s.

(** The body of the loop over segments, CM/CommonMini.cpp:1445-1469.  [components] is the vector (back = last
    element); [removelast] is pop_back, [last] is back. *)
Definition norm_step (is_absolute : bool) (components : list str) (segment : str) : list str :=
  if str_eqb segment [] || str_eqb segment [dot] then components
  else if str_eqb segment [dot; dot] then
    if negb (match components with [] => true | _ => false end)
       && negb (str_eqb (last components []) [dot; dot])
    then removelast components
    else if negb (is_absolute && match components with [] => true | _ => false end)
    then components ++ [segment]
    else components
  else components ++ [segment].

(** The joining loop, CM/CommonMini.cpp:1480-1488. *)
Fixpoint norm_join (components : list str) : str :=
  match components with
  | [] => []
  | [c] => c
  | c :: r => c ++ [slash] ++ norm_join r
  end.

(** LexicallyNormalizePath, CM/CommonMini.cpp:1415-1501. *)
Definition LexicallyNormalizePath (path_str : str) : option str :=
  let temp := unify path_str in
  let is_absolute := match temp with c :: _ => Ascii.eqb c slash | [] => false end in
  match getlines (S (length temp)) slash temp with
  | None => None
  | Some segs =>
      let components := fold_left (norm_step is_absolute) segs [] in
      let normalized := (if is_absolute then [slash] else []) ++ norm_join components in
      Some (match normalized with
            | [] => if is_absolute then [slash] else [dot]
            | _ => normalized
            end)
  end.

(** std::string::find_last_of for a predicate on characters, as called at CM/CommonMini.cpp:1207, 1214, 1265, 1278,
    1288, 1404: position of the last match. *)
Fixpoint find_last (p : ascii -> bool) (l : str) : option nat :=
  match l with
  | [] => None
  | x :: r =>
      match find_last p r with
      | Some k => Some (S k)
      | None => if p x then Some 0 else None
      end
  end.

(** The character class of find_last_of with both separators, CM/CommonMini.cpp:1207. *)
Definition is_sep (c : ascii) : bool := Ascii.eqb c backslash || Ascii.eqb c slash.

(** The character class of find_last_of("."), CM/CommonMini.cpp:1265. *)
Definition is_dot (c : ascii) : bool := Ascii.eqb c dot.

(** DirNameOf, CM/CommonMini.cpp:1200-1210. *)
Definition DirNameOf (fname : str) : str :=
  match fname with
  | [] => []
  | _ => match find_last is_sep fname with None => [dot; slash] | Some p => firstn p fname end
  end.

(** FileNameOf, CM/CommonMini.cpp:1212-1221. *)
Definition FileNameOf (fname : str) : str :=
  match find_last is_sep fname with Some p => skipn (S p) fname | None => fname end.

(** LastDirOfFolderPath, CM/CommonMini.cpp:1223-1251. *)
Definition LastDirOfFolderPath (path : str) : str :=
  match find_last is_sep path with
  | Some pos =>
      if negb (Nat.eqb pos (length path - 1)) then skipn (S pos) path
      else if negb (Nat.eqb pos 0) then
        let tmp := removelast path in
        match find_last is_sep tmp with Some pos2 => skipn (S pos2) tmp | None => [] end
      else []
  | None => path
  end.

(** IsDirectoryName, CM/CommonMini.cpp:1253-1261. *)
Definition IsDirectoryName (s : str) : bool :=
  match s with [] => false | _ => is_sep (last s dot) end.

(** FileNameExtOf, CM/CommonMini.cpp:1263-1274. *)
Definition FileNameExtOf (fname : str) : str :=
  match find_last is_dot fname with Some p => skipn p fname | None => [] end.

(** FileNameWithoutExtOf, CM/CommonMini.cpp:1276-1297.  [end_pos - start_pos] is computed in size_t: when the last dot
    lies before the last separator it wraps to a length larger than the string, so the rest is returned. *)
Definition FileNameWithoutExtOf (fname : str) : str :=
  let start := match find_last is_sep fname with Some p => S p | None => 0 end in
  match find_last is_dot fname with
  | Some e => if Nat.leb start e then firstn (e - start) (skipn start fname) else skipn start fname
  | None => skipn start fname
  end.

(** FilePathWithoutExtOf, CM/CommonMini.cpp:1402-1413. *)
Definition FilePathWithoutExtOf (fpath : str) : str :=
  match find_last is_dot fpath with Some e => firstn e fpath | None => fpath end.

(** CombineDirectoryPathAndFilepath, CM/CommonMini.cpp:245-263; [file_path[1]] of a one character string is the
    terminating zero. *)
Definition CombineDirectoryPathAndFilepath (dir_path file_path : str) : str :=
  match file_path with
  | [] => file_path
  | c :: r =>
      if negb (Ascii.eqb c slash) && negb (Ascii.eqb c backslash) && negb (Ascii.eqb (hd zero r) colon)
      then let path := if Ascii.eqb c dot then file_path else dot :: slash :: file_path in
           match dir_path with [] => path | _ => dir_path ++ [slash] ++ path end
      else file_path
  end.

(** The candidate list of LocateFile, CM/CommonMini.cpp:268-294; [env] are SE_Env::GetPaths(). *)
Definition candidates (file_path : str) (env dirs : list str) : list str :=
  let filename := FileNameOf file_path in
  let two d := if str_eqb filename file_path then [CombineDirectoryPathAndFilepath d file_path]
               else [CombineDirectoryPathAndFilepath d file_path; CombineDirectoryPathAndFilepath d filename] in
  (if str_eqb filename file_path then [file_path] else [file_path; filename])
  ++ flat_map two env ++ flat_map two dirs.

(** LocateFile, CM/CommonMini.cpp:265-334; [exists_] is fs::exists.  Result: path and the [found] flag. *)
Definition LocateFile (exists_ : str -> bool) (file_path : str) (env dirs : list str) : option (str * bool) :=
  match find exists_ (candidates file_path env dirs) with
  | Some c => option_map (fun p => (p, true)) (LexicallyNormalizePath c)
  | None => Some (file_path, false)
  end.

(** SE_Env::AddPath on the values of option "path", CM/CommonMini.cpp:1961-1975 (SetOptionValue with add = true appends). *)
Definition AddPath (paths : list str) (path : str) : list str * bool :=
  if existsb (fun p => str_eqb p path) paths then (paths, false) else (paths ++ [path], true).

(** One line of SE_ReadCSVFile, CM/CommonMini.cpp:3057-3063. *)
Definition csv_row (line : str) : option (list str) := getlines (S (length line)) ","%char line.
