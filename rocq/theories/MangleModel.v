(** Model of sources/dfmc/mangling/mangling.dylan, demangling.dylan and of
    sources/lib/run-time/demangle.c.

    A byte string is a list of character codes ([nat]; the theorems take codes below 256).
    Mangler objects are their (constant) tables; the mangler buffer, reset before each use,
    is the returned list. *)
From Verif Require Import Base.
Local Open Scope nat_scope.
Local Open Scope outcome_scope.

Notation bytes := (list nat).

(** Character codes. *)
Notation ch_0 := 48 (only parsing).  Notation ch_9 := 57 (only parsing).
Notation ch_a := 97 (only parsing).  Notation ch_z := 122 (only parsing).
Notation ch_A := 65 (only parsing).  Notation ch_upper_Z := 90 (only parsing).

(** mangling.dylan:10-22 separators and markers. *)
Definition module_separator : nat := 89.        (* Y *)
Definition library_separator : nat := 86.       (* V *)
Definition local_suffix : nat := 95.            (* _ *)
Definition hygiene_marker : nat := 70.          (* F *)
Definition escape_separator : nat := 90.        (* Z *)
Definition constant_prefix : nat := 75.         (* K *)
Definition symbol_prefix : nat := 74.           (* J *)
Definition indirection_prefix : nat := 73.      (* I *)
Definition wrapper_suffix : nat := 87.          (* W *)
Definition iep_suffix : nat := 73.              (* I *)
Definition method_mangled_marker : nat := 77.   (* M *)
Definition slot_mangled_marker : nat := 72.     (* H *)
Definition dylan_module_separator : nat := 75.  (* K *)
Definition domain_mangled_marker_string : bytes := [82; 68; 95]. (* RD_ *)

(** mangling.dylan:44-51 the decoration markers. *)
Definition all_decoration_markers : bytes :=
  [constant_prefix; indirection_prefix; symbol_prefix;
   local_suffix; wrapper_suffix; iep_suffix].

(** Text of a literal. *)
Definition txt (s : string) : bytes := map Ascii.nat_of_ascii (String.list_ascii_of_string s).

(** mangling.dylan:53-62 $mangle-dylan-module. *)
Definition mangle_dylan_module : list (bytes * nat) :=
  [ (txt "dylan", 100); (txt "internal", 105); (txt "dylan-primitives", 112);
    (txt "dylan-extensions", 101); (txt "dylan-c-ffi", 99); (txt "dylan-incremental", 110);
    (txt "dylan-threads", 116); (txt "dispatch-engine", 103);
    (txt "machine-word-lowlevel", 109) ].

(** mangling.dylan:79-85 $mangles-data: (character, mangled character). *)
Definition mangles_data : list (nat * nat) :=
  [ (45, 95) (* - _ *); (33, 88) (* ! X *); (36, 68) (* $ D *); (37, 80) (* % P *);
    (42, 84) (* * T *); (47, 83) (* / S *); (60, 76) (* < L *); (62, 71) (* > G *);
    (63, 81) (* ? Q *); (43, 65) (* + A *); (38, 66) (* & B *); (94, 67) (* ^ C *);
    (95, 85) (* _ U *); (64, 79) (* @ O *); (61, 69) (* = E *); (126, 78) (* ~ N *);
    (35, 77) (* # M *); (44, 72) (* , H *) ].

Definition assoc_nat (c : nat) (l : list (nat * nat)) : option nat :=
  match List.find (fun p => Nat.eqb (fst p) c) l with Some p => Some (snd p) | None => None end.

Definition rassoc_nat (c : nat) (l : list (nat * nat)) : option nat :=
  match List.find (fun p => Nat.eqb (snd p) c) l with Some p => Some (fst p) | None => None end.

Definition is_digit (c : nat) : bool := (48 <=? c) && (c <=? 57).
Definition is_lower (c : nat) : bool := (97 <=? c) && (c <=? 122).

(** mangling.dylan:303-322 mangle-integer (non-negative arguments).  The Dylan code
    allocates the result at the innermost call and fills it on the way out; the model
    appends the digit instead. *)
Fixpoint mangle_integer_loop (fuel n : nat) : bytes :=
  match fuel with
  | O => []
  | S f =>
      let q := n / 10 in
      let r := n mod 10 in
      if Nat.eqb q 0 then [48 + r] else mangle_integer_loop f q ++ [48 + r]
  end.

Definition mangle_integer (n : nat) : bytes := mangle_integer_loop (S n) n.

(** mangling.dylan:151-170 initialize-mangler-table, read at one index.  Later writes win:
    letters and digits, then $mangles-data, then the escape. *)
Definition mangle_char (c : nat) : bytes :=
  if is_digit c then [c]
  else if is_lower c then [c]
  else match assoc_nat c mangles_data with
       | Some m => [m]
       | None => [escape_separator] ++ mangle_integer c ++ [escape_separator]
       end.

(** mangling.dylan:231-236 mangle-name-into / 243-248 mangle-name-raw. *)
Definition mangle_name (s : bytes) : bytes := flat_map mangle_char s.

(** mangling.dylan:250-256 mangle-name-locally. *)
Definition mangle_name_locally (s : bytes) : bytes := mangle_name s ++ [local_suffix].

(** mangling.dylan:258-265 mangle-name-hygienically. *)
Definition mangle_name_hygienically (s : bytes) (marker : nat) : bytes :=
  mangle_name s ++ [hygiene_marker] ++ mangle_integer marker.

(** as-lowercase on ASCII letters (symbols compare case-insensitively). *)
Definition lower_char (c : nat) : nat := if (65 <=? c) && (c <=? 90) then c + 32 else c.
Definition as_lowercase (s : bytes) : bytes := map lower_char s.

Definition dylan_abbreviation (module : bytes) : option nat :=
  match List.find (fun p => bool_decide (fst p = as_lowercase module)) mangle_dylan_module with
  | Some p => Some (snd p)
  | None => None
  end.

(** mangling.dylan:276-299 mangle-namespace-spread-into. *)
Definition non_dylan_mangle (m l : bytes) : bytes :=
  (if bool_decide (m = l) then [] else [module_separator] ++ mangle_name m)
  ++ [library_separator] ++ mangle_name l.

Definition mangle_namespace (m l : bytes) : bytes :=
  if bool_decide (as_lowercase l = txt "dylan") then
    match dylan_abbreviation m with
    | Some a => [library_separator; dylan_module_separator; a]
    | None => non_dylan_mangle m l
    end
  else non_dylan_mangle m l.

(** mangling.dylan:267-274 mangle-binding-spread. *)
Definition mangle_binding_spread (v m l : bytes) : bytes :=
  mangle_name v ++ mangle_namespace m l.

(** mangling.dylan:327-333 mangle-constant, mangle-symbol. *)
Definition mangle_constant (name : bytes) : bytes := constant_prefix :: name.
Definition mangle_symbol (name : bytes) : bytes := constant_prefix :: symbol_prefix :: name.

(** mangling.dylan:335-350 mangle-generic-method; [name] is already mangled. *)
Definition mangle_generic_method (name : bytes) (number : nat) (method_lib generic_lib : bytes)
  : bytes :=
  [constant_prefix] ++ name ++ [method_mangled_marker]
  ++ (if bool_decide (generic_lib = method_lib) then [] else mangle_name method_lib)
  ++ [method_mangled_marker] ++ mangle_integer number.

(** mangling.dylan:352-358 mangle-local-method. *)
Definition mangle_local_method (name : bytes) (number : nat) : bytes :=
  [constant_prefix] ++ name ++ [hygiene_marker] ++ mangle_integer number.

(** mangling.dylan:360-368 mangle-domain. *)
Definition mangle_domain (name : bytes) (number : nat) (library_name : bytes) : bytes :=
  [constant_prefix] ++ name ++ domain_mangled_marker_string ++ library_name
  ++ domain_mangled_marker_string ++ mangle_integer number.

(** mangling.dylan:393-395 mangle-wrapper. *)
Definition mangle_wrapper (name : bytes) : bytes :=
  [constant_prefix] ++ name ++ [wrapper_suffix].

(** ** Demangling *)

(** What the demangler table holds at one index (demangling.dylan:27-46). *)
Inductive demangle_entry := DChar (c : nat) | DEscape | DHandler.

Definition demangle_entry_of (c : nat) : demangle_entry :=
  if is_digit c then DChar c
  else if is_lower c then DChar c
  else match rassoc_nat c mangles_data with
       | Some m => DChar m
       | None => if Nat.eqb c escape_separator then DEscape else DHandler
       end.

(** demangling.dylan:60-82 demangle-escape, on the text after the escape marker.  The code
    is returned together with the text at which to resume. *)
Fixpoint read_digits (code : nat) (s : bytes) : nat * bytes :=
  match s with
  | c :: r => if is_digit c then read_digits (code * 10 + (c - 48)) r else (code, s)
  | [] => (code, s)
  end.

Definition demangle_escape (s : bytes) : outcome (nat * bytes) :=
  let '(code, rest) := read_digits 0 s in
  (* as(<character>, code): a code that is no byte is an error *)
  if code <? 256 then
    match rest with
    | c :: rest' => if Nat.eqb c escape_separator then Val (code, rest') else Val (code, rest)
    | [] => Val (code, rest)
    end
  else Signal "not a byte character"%string.

(** demangling.dylan:84-93 default-demangler-handler-function. *)
Definition default_handler (c : nat) : bytes :=
  if existsb (Nat.eqb c) all_decoration_markers then [] else [c].

(** demangling.dylan:95-115 demangle-name-into, 118-125 demangle-name-raw.  The position is
    represented by the remaining text (the code never looks behind the position). *)
Fixpoint demangle_loop (fuel : nat) (s : bytes) : outcome bytes :=
  match s with
  | [] => Val []
  | c :: r =>
      match fuel with
      | O => NoFuel
      | S f =>
          match demangle_entry_of c with
          | DChar m => do t <- demangle_loop f r; Val (m :: t)
          | DEscape =>
              do ' (code, r') <- demangle_escape r;
              do t <- demangle_loop f r'; Val (code :: t)
          | DHandler => do t <- demangle_loop f r; Val (default_handler c ++ t)
          end
      end
  end.

Definition demangle_name (s : bytes) : outcome bytes := demangle_loop (length s) s.

(** find-key(name, curry(\==, c)). *)
Fixpoint find_key (c : nat) (s : bytes) : option nat :=
  match s with
  | [] => None
  | x :: r =>
      if Nat.eqb x c then Some 0
      else match find_key c r with Some i => Some (S i) | None => None end
  end.

(** copy-sequence(s, start: a, end: b); a range error is signalled when it does not fit. *)
Definition copy_seq (s : bytes) (a b : nat) : outcome bytes :=
  if bool_decide (a <= b /\ b <= length s) then Val (take (b - a) (drop a s))
  else Signal "range error"%string.

(** demangling.dylan:128-148 demangle-name-locally.  string-to-integer (on digits) is
    [read_digits]. *)
Definition demangle_name_locally (name : bytes) : outcome (bytes * option nat) :=
  if bool_decide (name = []) then Signal "range error"%string
  else
    let boundary := length name - 1 in
    do suffix <- copy_seq name boundary (length name);
    if bool_decide (suffix = [local_suffix]) then
      do s <- copy_seq name 0 boundary;
      do r <- demangle_name s; Val (r, None)
    else
      match find_key hygiene_marker name with
      | Some hm =>
          do d <- copy_seq name (hm + 1) (length name);
          do s <- copy_seq name 0 hm;
          do r <- demangle_name s; Val (r, Some (fst (read_digits 0 d)))
      | None => do r <- demangle_name name; Val (r, None)
      end.

(** $demangle-dylan-module (mangling.dylan:64-71). *)
Definition demangle_dylan_module (a : nat) : option bytes :=
  match List.find (fun p => Nat.eqb (snd p) a) mangle_dylan_module with
  | Some p => Some (fst p)
  | None => None
  end.

(** demangling.dylan:151-189 demangle-binding-spread. *)
Definition demangle_binding_spread (name : bytes)
  : outcome (bytes * option bytes * option bytes) :=
  let binding_end := default (length name) (find_key method_mangled_marker name) in
  let whole := do v <- demangle_name name; Val (v, None, None) in
  match find_key library_separator name with
  | None => whole
  | Some lsep =>
      if bool_decide (lsep + 1 < binding_end) then
        let plain :=
          do vname <- copy_seq name 0 lsep;
          do k <- vread name (lsep + 1);
          if Nat.eqb k dylan_module_separator then
            do dlname <- demangle_name (txt "dylan");
            do a <- match name !! (lsep + 2) with
                    | Some a => Val a | None => Signal "element-range-error"%string end;
            do dmname <- match demangle_dylan_module a with
                         | Some m => Val m | None => Signal "element error"%string end;
            do v <- demangle_name vname;
            Val (v, Some dmname, Some dlname)
          else
            do lname <- copy_seq name (lsep + 1) binding_end;
            do dlname <- demangle_name lname;
            do v <- demangle_name vname;
            Val (v, Some dlname, Some dlname) in
        match find_key module_separator name with
        | Some msep =>
            if bool_decide (msep < lsep) then
              do vname <- copy_seq name 0 msep;
              do mname <- copy_seq name (msep + 1) lsep;
              do lname <- copy_seq name (lsep + 1) binding_end;
              do v <- demangle_name vname;
              do m <- demangle_name mname;
              do l <- demangle_name lname;
              Val (v, Some m, Some l)
            else plain
        | None => plain
        end
      else whole
  end.

(** demangling.dylan:279-289 demangler-extract-generic-function-name. *)
Definition extract_generic_function_name (name : bytes) : outcome bytes :=
  match find_key method_mangled_marker name with
  | Some mm => copy_seq name 0 mm
  | None => Val name
  end.

(** demangling.dylan:298-308 demangler-extract-callable-object-name. *)
Definition extract_callable_object_name (name : bytes) : outcome bytes :=
  if bool_decide (last name = Some iep_suffix) then copy_seq name 0 (length name - 1)
  else Val name.

(** demangling.dylan:242-271 demangler-extract-method-details. *)
Definition extract_method_details (name : bytes) : outcome (option bytes * bytes) :=
  do cname <- extract_callable_object_name name;
  match find_key method_mangled_marker cname with
  | None => Val (None, [48])
  | Some mm =>
      do detail <- copy_seq cname (mm + 1) (length cname);
      match find_key method_mangled_marker detail with
      | None => Val (None, [48])
      | Some mm2 =>
          do lib_part <- copy_seq detail 0 mm2;
          do num <- copy_seq detail (mm2 + 1) (length detail);
          do lib <- (if bool_decide (lib_part = []) then
                       do ' (_, _, l) <- demangle_binding_spread cname; Val l
                     else Val (Some lib_part));
          match lib with
          | None => Val (None, num)
          | Some l => do d <- demangle_name l; Val (Some d, num)
          end
      end
  end.

(** ** The C demangler, sources/lib/run-time/demangle.c *)
Section c_demangler.
(** Whether plain [char] is signed (x86: yes, arm: no). *)
Context (char_signed : bool).
(** The NUL-terminated source: [src] without its NUL. *)
Context (src : bytes).

(** [*p] for a source pointer at offset [i]. *)
Definition rd (i : nat) : outcome nat :=
  match src !! i with
  | Some c => Val c
  | None => if Nat.eqb i (length src) then Val 0 else UB
  end.

(** demangle.c:36-49: demangle_map[(unsigned) c].  The mapping string lacks '#' and ','.
    A negative char makes the index huge: out of bounds. *)
Definition c_mapping : list (nat * nat) :=
  [ (45, 95); (33, 88); (36, 68); (37, 80); (42, 84); (47, 83); (60, 76); (62, 71);
    (63, 81); (43, 65); (38, 66); (94, 67); (95, 85); (64, 79); (61, 69); (126, 78) ].

Definition demangle_map (c : nat) : outcome nat :=
  if char_signed && (128 <=? c) then UB
  else if is_digit c then Val c
  else if is_lower c then Val c
  else Val (default 0 (rassoc_nat c c_mapping)).

(** demangle.c:25-35 dylan_abbrev_map: index 0..'t'; NULL where no initializer. *)
Definition abbrev_map_len : nat := 117.
Definition abbrev_module (a : nat) : option bytes := demangle_dylan_module a.

(** Write a text at [d] while it is non-empty and [d] is below the limit. *)
Fixpoint put (buf : bytes) (d limit : nat) (t : bytes) : outcome (bytes * nat) :=
  match t with
  | [] => Val (buf, d)
  | c :: r =>
      if d <? limit then do buf' <- vwrite buf d c; put buf' (S d) limit r
      else Val (buf, d)
  end.

(** demangle.c:117-120: copy the library text, which lies in [buf] itself. *)
Fixpoint copy_library (n : nat) (buf : bytes) (d limit lib lib_end : nat)
  : outcome (bytes * nat) :=
  if (lib <? lib_end) && (d <? limit) then
    match n with
    | O => NoFuel
    | S n' =>
        do c <- vread buf lib;
        do buf' <- vwrite buf d c;
        copy_library n' buf' (S d) limit (S lib) lib_end
    end
  else Val (buf, d).

(** demangle.c:66-69, digits of an escape; [value] is a 32-bit unsigned. *)
Fixpoint c_digits (n : nat) (i : nat) (value : N) : outcome (nat * N) :=
  do c <- rd i;
  if is_digit c then
    match n with
    | O => NoFuel
    | S n' => c_digits n' (S i) ((value * 10 + N.of_nat (c - 48)) mod 2 ^ 32)%N
    end
  else Val (i, value).

Record cstate := CState
  { cs_src : nat; cs_dest : nat; cs_buf : bytes; cs_module_seen : bool;
    cs_library : option nat }.

(** demangle.c:58-131, one iteration of the loop body.  [None] = return -1. *)
Definition c_body (limit : nat) (st : cstate) : outcome (option cstate) :=
  let '(CState s d buf seen library) := st in
  do c <- rd s;
  let s := S s in
  do mapped <- demangle_map c;
  if negb (Nat.eqb mapped 0) then
    do buf' <- vwrite buf d mapped;
    Val (Some (CState s (S d) buf' seen library))
  else if Nat.eqb c escape_separator then
    do ' (s', value) <- c_digits (length src) s 0%N;
    do e <- rd s';
    if Nat.eqb e escape_separator then
      do buf' <- vwrite buf d (N.to_nat (value mod 256));
      Val (Some (CState (S s') (S d) buf' seen library))
    else Val None
  else if Nat.eqb c dylan_module_separator then
    do abbrev <- rd s;
    let s := S s in
    if (negb (char_signed && (128 <=? abbrev))) && (abbrev <? abbrev_map_len) then
      match abbrev_module abbrev with
      | Some m =>
          do ' (buf1, d1) <- put buf d limit m;
          do ' (buf2, d2) <- put buf1 d1 limit (txt ":dylan");
          Val (Some (CState s d2 buf2 true library))
      | None => Val (Some (CState s d buf true library))
      end
    else Val None
  else if Nat.eqb c module_separator then
    do buf' <- vwrite buf d 58;
    Val (Some (CState s (S d) buf' true library))
  else if Nat.eqb c library_separator then
    do buf' <- vwrite buf d 58;
    Val (Some (CState s (S d) buf' seen (Some d)))
  else if Nat.eqb c method_mangled_marker || Nat.eqb c iep_suffix then
    do ' (buf1, d1, seen1) <-
      match library with
      | Some lib =>
          if negb seen then
            do ' (b, d') <- copy_library d buf d limit lib d; Val (b, d', true)
          else Val (buf, d, seen)
      | None => Val (buf, d, seen)
      end;
    if Nat.eqb c method_mangled_marker then
      do buf2 <- vwrite buf1 d1 35;
      Val (Some (CState s (S d1) buf2 seen1 library))
    else Val (Some (CState s d1 buf1 seen1 library))
  else Val None.

(** demangle.c:57: while ( *src && dest < limit). *)
Fixpoint c_loop (fuel : nat) (limit : nat) (st : cstate) : outcome (option cstate) :=
  do c <- rd (cs_src st);
  if negb (Nat.eqb c 0) && (cs_dest st <? limit) then
    match fuel with
    | O => NoFuel
    | S f =>
        do r <- c_body limit st;
        match r with
        | None => Val None
        | Some st' => c_loop f limit st'
        end
    end
  else Val (Some st).

(** demangle.c:18-136 dylan_demangle.  [buf0] is the caller's buffer (its length is
    destsize).  The result is the buffer and the offset of the terminating NUL, or [None]
    for -1. *)
Definition dylan_demangle (buf0 : bytes) : outcome (option (bytes * nat)) :=
  match buf0 with
  | [] => Val None
  | _ =>
      let limit := length buf0 - 1 in
      do c0 <- rd 0;
      let start := if Nat.eqb c0 constant_prefix then 1 else 0 in
      do r <- c_loop (S (length src)) limit (CState start 0 buf0 false None);
      match r with
      | None => Val None
      | Some st =>
          do buf <- vwrite (cs_buf st) (cs_dest st) 0;
          Val (Some (buf, cs_dest st))
      end
  end.

End c_demangler.
