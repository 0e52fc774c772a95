(** Model of POSIX locators: the path routines of system/locators/utilities.dylan,
    the generic locator operations of system/locators/locators.dylan and the POSIX
    classes of system/file-system/posix-locators.dylan.

    Strings are lists of character codes.  An item of a path is a string or one of
    the symbols #"self" and #"parent" (any other symbol fails the type of
    [item-name], utilities.dylan:150, only when printed; such symbols are not
    modelled).  Equality [=] of strings, paths and locators is equality of the
    values.  Not modelled: server, host and volume of other operating systems'
    locators, string classes other than the one of the arguments. *)
From Verif Require Import Base SplitModel.
Local Open Scope Z_scope.
Local Open Scope outcome_scope.

Notation name := (list Z) (only parsing).

(** utilities.dylan:11, posix-locators.dylan:10-11: '/' and '.'. *)
Definition separator : Z := 47.
Definition dot : Z := 46.

Inductive item := Self | Parent | Name (s : name).

Global Instance item_eq_dec : EqDecision item.
Proof. solve_decision. Defined.

(** locators.dylan:40-45 [<directory-locator>] (posix-locators.dylan:29-31). *)
Record dir := Dir { d_relative : bool; d_path : list item }.
Global Instance dir_eq_dec : EqDecision dir.
Proof. solve_decision. Defined.

(** posix-locators.dylan:116-124 [<posix-file-locator>]; [make] (140-142) never
    leaves [base] false. *)
Record file := File { f_directory : option dir; f_base : name; f_extension : option name }.
Global Instance file_eq_dec : EqDecision file.
Proof. solve_decision. Defined.

(** utilities.dylan:60-72 [find-delimiter-from-end] with the default bounds; [n] is
    one more than the index looked at next. *)
Fixpoint find_delimiter_from_end (s : name) (d : Z) (n : nat) : outcome (option Z) :=
  match n with
  | O => Val None
  | S i =>
      do c <- elt s (Z.of_nat i) ;
      if bool_decide (c = d) then Val (Some (Z.of_nat i))
      else find_delimiter_from_end s d i
  end.

(** utilities.dylan:91-106 [canonicalize-path] (the index loop that fills the new
    vector is a map). *)
Definition canonicalize_item (x : item) : item :=
  match x with
  | Name s => if bool_decide (s = [dot]) then Self
              else if bool_decide (s = [dot; dot]) then Parent else Name s
  | _ => x
  end.
Definition canonicalize_path (p : list item) : list item := map canonicalize_item p.

(** utilities.dylan:118-128: the while loop of [parse-path]; [n] is
    [stop - position].  State: [old-position], [path] (in order), [relative?]. *)
Fixpoint parse_loop (s : name) (start position : Z) (n : nat)
    (old : Z) (path : list name) (relative : bool) : outcome (Z * list name * bool) :=
  match n with
  | O => Val (old, path, relative)
  | S n' =>
      do c <- elt s position ;
      if bool_decide (c = separator) then
        let relative' := if bool_decide (position = start) then false else relative in  (* 121 *)
        do path' <- (if bool_decide (old < position) then                              (* 122 *)
                       do piece <- copy_sequence s old position ; Val (path ++ [piece])
                     else Val path) ;
        parse_loop s start (position + 1) n' (position + 1) path' relative'
      else parse_loop s start (position + 1) n' old path relative
  end.

(** utilities.dylan:108-133 [parse-path] with start 0 and end [string.size]. *)
Definition parse_path (s : name) : outcome (list name * bool) :=
  do ' (old, path, relative) <- parse_loop s 0 0 (length s) 0 [] true ;
  do path' <- (if bool_decide (old < size s) then                              (* 129 *)
                 do piece <- copy_sequence s old (size s) ; Val (path ++ [piece])
               else Val path) ;
  Val (path', relative).

(** utilities.dylan:149-156 [item-name]. *)
Definition item_name (x : item) : name :=
  match x with Self => [dot] | Parent => [dot; dot] | Name s => s end.

(** Checked [element-setter] on a string. *)
Definition set_elt (s : name) (i : Z) (c : Z) : outcome name :=
  if bool_decide (0 <= i < size s) then Val (<[Z.to_nat i := c]> s)
  else Signal "element-range-error".

(** utilities.dylan:168-171: copying an item's characters; state ([string], [pos]). *)
Fixpoint put_chars (st : name * Z) (cs : name) : outcome (name * Z) :=
  match cs with
  | [] => Val st
  | c :: cs' => do s' <- set_elt st.1 st.2 c ; put_chars (s', st.2 + 1) cs'
  end.

(** utilities.dylan:167-174. *)
Fixpoint put_items (st : name * Z) (p : list item) : outcome (name * Z) :=
  match p with
  | [] => Val st
  | x :: p' =>
      do st1 <- put_chars st (item_name x) ;
      do st2 <- put_chars st1 [separator] ;
      put_items st2 p'
  end.

(** utilities.dylan:143-176 [path-to-string]; [fill] is what [make] fills the fresh
    string with. *)
Definition path_to_string (fill : Z) (p : list item) (relative : bool) : outcome name :=
  let string_size :=
    fold_left (fun n x => n + size (item_name x)) p
      (Z.of_nat (length p) + (if relative then 0 else 1)) in
  do st <- (if relative then Val (replicate (Z.to_nat string_size) fill, 0)
            else put_chars (replicate (Z.to_nat string_size) fill, 0) [separator]) ;
  do st' <- put_items st p ;
  Val st'.1.

(** utilities.dylan:184-200: the loop of [relative-path] with test [=]. *)
Fixpoint relative_path_loop (fuel : nat) (path from : list item) (i : Z) : outcome (list item) :=
  match fuel with
  | O => NoFuel
  | S fuel' =>
      if bool_decide (i = size path) then
        if bool_decide (size from - i < 0) then Signal "make: negative size"
        else Val (replicate (Z.to_nat (size from - i)) Parent)                   (* 186-189 *)
      else if bool_decide (i = size from) then copy_sequence path i (size path)   (* 190-191 *)
      else
        do a <- elt path i ;
        do b <- elt from i ;
        if bool_decide (a = b) then relative_path_loop fuel' path from (i + 1)   (* 192-193 *)
        else
          do rest <- copy_sequence path i (size path) ;
          Val (replicate (Z.to_nat (size from - i)) Parent ++ rest)              (* 194-198 *)
  end.

(** utilities.dylan:178-201 [relative-path]. *)
Definition relative_path (path from : list item) : outcome (list item) :=
  relative_path_loop (S (length path)) path from 0.

(** utilities.dylan:208-224: the loop of [simplify-path]; [new] has the last item
    first. *)
Fixpoint simplify_loop (new : list item) (p : list item) : list item :=
  match p with
  | [] => new
  | Self :: p' => simplify_loop new p'
  | Parent :: p' =>
      match new with
      | [] => simplify_loop (Parent :: new) p'
      | Parent :: _ => simplify_loop (Parent :: new) p'
      | _ :: new' => simplify_loop new' p'
      end
  | Name s :: p' => simplify_loop (Name s :: new) p'
  end.

(** utilities.dylan:203-229 [simplify-path]. *)
Definition simplify_path (p : list item) (relative : bool) : list item :=
  let new := simplify_loop [] p in
  let new := match new with [] => if relative then [Self] else [] | _ => new end in
  rev new.

(** posix-locators.dylan:33-55 [make] on <posix-directory-locator>, [server] not
    given.  Without path, name and directory [canonicalize-path] is applied to
    #f, a type error. *)
Definition make_dir (path : option (list item)) (directory : option dir) (nm : option name)
    (relative : bool) : outcome dir :=
  let path :=
    match nm, directory with
    | None, None => path
    | _, _ => Some (match directory with Some d => d_path d | None => [] end
                    ++ match nm with Some s => [Name s] | None => [] end)
    end in
  match path with
  | Some p => Val (Dir relative (canonicalize_path p))
  | None => Signal "type-error"
  end.

(** The calls with [path:] and [relative?:] only. *)
Definition make_dir_path (p : list item) (relative : bool) : outcome dir :=
  make_dir (Some p) None None relative.

(** locators.dylan:143-147 [current-directory-locator?]. *)
Definition current_directory (d : dir) : bool :=
  d_relative d && bool_decide (d_path d = [Self]).

(** posix-locators.dylan:126-147 [make] on <posix-file-locator>. *)
Definition make_file (directory : option dir) (base ext : option name) (nm : option name)
    : outcome file :=
  let directory :=
    match directory with
    | Some d => if current_directory d then None else Some d
    | None => None
    end in
  do pos <- (match nm with
             | Some s => find_delimiter_from_end s dot (length s)
             | None => Val None
             end) ;
  do base <- (match base with
              | Some b => Val (Some b)
              | None => match pos, nm with
                        | Some p, Some s => do b <- copy_sequence s 0 p ; Val (Some b)
                        | _, _ => Val nm
                        end
              end) ;
  do ext <- (match ext with
             | Some e => Val (Some e)
             | None => match pos, nm with
                       | Some p, Some s => do e <- copy_sequence s (p + 1) (size s) ; Val (Some e)
                       | _, _ => Val None
                       end
             end) ;
  match base with
  | Some b => Val (File directory b ext)
  | None => Signal "locator-error"
  end.

(** posix-locators.dylan:67-79 [locator-name] of a directory.  Its declared result
    type is false-or(<string>); a final #"parent" is returned as the symbol and
    fails that type. *)
Definition dir_name (d : dir) : outcome (option name) :=
  match last (d_path d) with
  | None => Val None
  | Some Self => Val (Some [dot])
  | Some Parent => Signal "type-error"
  | Some (Name s) => Val (Some s)
  end.

(** posix-locators.dylan:149-161 [locator-name] of a file. *)
Definition file_name (f : file) : name :=
  match f_extension f with Some e => f_base f ++ [dot] ++ e | None => f_base f end.

(** posix-locators.dylan:90-98 [string-as-locator] for a directory. *)
Definition string_as_dir (s : name) : outcome dir :=
  do ' (path, relative) <- parse_path s ;
  make_dir_path (map Name path) relative.

(** posix-locators.dylan:100-108 [locator-as-string] for a directory. *)
Definition dir_as_string (fill : Z) (d : dir) : outcome name :=
  path_to_string fill (d_path d) (d_relative d).

(** posix-locators.dylan:182-192 [locator-as-string] for a file. *)
Definition file_as_string (fill : Z) (f : file) : outcome name :=
  match f_directory f with
  | Some d => do s <- dir_as_string fill d ; Val (s ++ file_name f)
  | None => Val (file_name f)
  end.

(** posix-locators.dylan:194-209 [string-as-locator] for a file. *)
Definition string_as_file (s : name) : outcome file :=
  do pos <- find_delimiter_from_end s separator (length s) ;
  match pos with
  | Some p =>
      do ds <- copy_sequence s 0 (p + 1) ;
      do d <- string_as_dir ds ;
      do nm <- copy_sequence s (p + 1) (size s) ;
      make_file (Some d) None None (Some nm)
  | None => make_file None None None (Some s)
  end.

(** posix-locators.dylan:17-26 [string-as-locator] when either kind will do. *)
Inductive locator := LDir (d : dir) | LFile (f : file).
Definition string_as_locator (s : name) : outcome locator :=
  do pos <- find_delimiter_from_end s separator (length s) ;
  if bool_decide (pos = Some (size s - 1)) then do d <- string_as_dir s ; Val (LDir d)
  else do f <- string_as_file s ; Val (LFile f).
Definition locator_as_string (fill : Z) (l : locator) : outcome name :=
  match l with LDir d => dir_as_string fill d | LFile f => file_as_string fill f end.

(** locators.dylan:149-162 [locator-directory] of a directory. *)
Definition dir_directory (d : dir) : outcome (option dir) :=
  let min := if d_relative d then 1 else 0 in
  if bool_decide (min < size (d_path d)) then
    do p <- copy_sequence (d_path d) 0 (size (d_path d) - 1) ;
    do d' <- make_dir_path p (d_relative d) ;
    Val (Some d')
  else Val None.

(** locators.dylan:180-194 [simplify-locator] of a directory. *)
Definition simplify_dir (d : dir) : outcome dir :=
  let p := simplify_path (d_path d) (d_relative d) in
  if bool_decide (d_path d = p) then Val d else make_dir_path p (d_relative d).

(** locators.dylan:196-209 [simplify-locator] of a file. *)
Definition simplify_file (f : file) : outcome file :=
  do sd <- (match f_directory f with
            | Some d => do d' <- simplify_dir d ; Val (Some d')
            | None => Val None
            end) ;
  if bool_decide (f_directory f = sd) then Val f
  else make_file sd (Some (f_base f)) (f_extension f) None.

(** locators.dylan:229-238 [subdirectory-locator]. *)
Definition subdirectory_locator (d : dir) (sub : list item) : outcome dir :=
  make_dir_path (d_path d ++ sub) (d_relative d).

(** locators.dylan:250-262 [file-locator]; [more] are the further names. *)
Definition file_locator (d : dir) (nm : name) (more : list name) : outcome file :=
  match rev more with
  | [] => make_file (Some d) None None (Some nm)
  | lst :: butlast =>
      do d' <- subdirectory_locator d (Name nm :: map Name (rev butlast)) ;
      make_file (Some d') None None (Some lst)
  end.

(** locators.dylan:272-293 [relative-locator] on two directories; POSIX servers are
    both #f (posix-locators.dylan:62-65). *)
Definition relative_dir (d from : dir) : outcome dir :=
  if negb (d_relative d) && d_relative from then Signal "locator-error"
  else if bool_decide (d_path d = d_path from) then make_dir_path [Self] true
  else do p <- relative_path (d_path d) (d_path from) ; make_dir_path p true.

(** locators.dylan:295-308 [relative-locator] of a file from a directory. *)
Definition relative_file (f : file) (from : dir) : outcome file :=
  do rd <- (match f_directory f with
            | Some d => do d' <- relative_dir d from ; Val (Some d')
            | None => Val None
            end) ;
  if bool_decide (rd = f_directory f) then Val f
  else make_file rd (Some (f_base f)) (f_extension f) None.

(** locators.dylan:340-352 [merge-locators] of two directories. *)
Definition merge_dir (d from : dir) : outcome dir :=
  if d_relative d then make_dir_path (d_path from ++ d_path d) (d_relative from)
  else Val d.

(** locators.dylan:354-371 [merge-locators] of a file with a directory. *)
Definition merge_file (f : file) (from : dir) : outcome file :=
  do md <- (match f_directory f with
            | Some d => merge_dir d from
            | None => Val from
            end) ;
  if bool_decide (Some md = f_directory f) then Val f
  else make_file (Some md) (Some (f_base f)) (f_extension f) None.

(** locators.dylan:310-324 [relative-locator] from a file. *)
Definition file_relative (f : file) : bool :=          (* locators.dylan:137-141 *)
  match f_directory f with Some d => d_relative d | None => true end.
Definition relative_dir_from_file (d : dir) (from : file) : outcome dir :=
  match f_directory from with
  | Some fd => relative_dir d fd
  | None => if negb (d_relative d) then Signal "locator-error" else Val d
  end.
Definition relative_file_from_file (f from : file) : outcome file :=
  match f_directory from with
  | Some fd => relative_file f fd
  | None => if negb (file_relative f) then Signal "locator-error" else Val f
  end.

(** locators.dylan:373-397 [merge-locators] with a file. *)
Definition merge_dir_with_file (d : dir) (from : file) : outcome file :=
  do d' <- (match f_directory from with Some fd => merge_dir d fd | None => Val d end) ;
  make_file (Some d') (Some (f_base from)) (f_extension from) None.
Definition merge_file_with_file (f from : file) : outcome file :=
  match f_directory from with Some fd => merge_file f fd | None => Val f end.
