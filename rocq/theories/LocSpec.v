(** What paths mean, in a tree without symbolic links. *)
From Verif Require Import Base SplitSpec LocModel.
Local Open Scope Z_scope.

(** A place in the tree: the names from the root down, innermost first; the root is
    the empty list and is its own parent. *)
Fixpoint walk (here : list name) (p : list item) : list name :=
  match p with
  | [] => here
  | Self :: p' => walk here p'
  | Parent :: p' => walk (tail here) p'
  | Name s :: p' => walk (s :: here) p'
  end.

(** The directory a directory locator denotes for a process whose working directory
    is [cwd]. *)
Definition dir_place (cwd : list name) (d : dir) : list name :=
  walk (if d_relative d then cwd else []) (d_path d).

(** The directory and the name of the file a file locator denotes. *)
Definition file_place (cwd : list name) (f : file) : list name * name :=
  (match f_directory f with Some d => dir_place cwd d | None => cwd end,
   match f_extension f with Some e => f_base f ++ [46] ++ e | None => f_base f end).

(** Names a directory entry can have. *)
Definition legal_name (s : name) : Prop :=
  s <> [] /\ 47 ∉ s /\ s <> [46] /\ s <> [46; 46].
Definition legal_item (x : item) : Prop :=
  match x with Name s => legal_name s | _ => True end.
Definition legal_dir (d : dir) : Prop := Forall legal_item (d_path d).

(** Items that [make] leaves alone: "." and ".." are never kept as names.  Every
    locator is made by [make], so every locator satisfies this. *)
Definition made_item (x : item) : Prop :=
  match x with Name s => s <> [46] /\ s <> [46; 46] | _ => True end.
Definition made_dir (d : dir) : Prop := Forall made_item (d_path d).
Definition made_file (f : file) : Prop :=
  forall d, f_directory f = Some d -> made_dir d /\ d <> Dir true [Self].

(** A file locator that says what its string says: no separator in the name, no dot
    in the extension, or none in the base when there is no extension; and a
    directory that is not the empty relative path. *)
Definition legal_file (f : file) : Prop :=
  (forall d, f_directory f = Some d ->
     legal_dir d /\ d <> Dir true [Self] /\ d <> Dir true []) /\
  47 ∉ f_base f /\
  match f_extension f with
  | Some e => 46 ∉ e /\ 47 ∉ e
  | None => 46 ∉ f_base f
  end.

(** The components of a path string: what lies between separators, empty pieces
    left out. *)
Definition components (s : name) (cs : list name) : Prop :=
  exists ps, Splits (eq [47]) s ps /\ cs = filter (fun p => p <> []) ps.

(** An item is a name; no item is #"self"; #"parent" only at the front. *)
Definition is_name (x : item) : Prop := match x with Name _ => True | _ => False end.
Definition simple_path (p : list item) : Prop :=
  exists k ns, p = replicate k Parent ++ ns /\ Forall is_name ns.
