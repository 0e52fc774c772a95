(** Model of the hash functions of sources/dylan/hashing.dylan, of the string
    tests they go with (sources/dylan/string.dylan, symbol-table.dylan) and of
    the interning of symbols (symbol-table.dylan, and before the Dylan library
    is initialised c-run-time.c:3574-3645).
    A string is the list of its character codes, whatever its class: all these
    functions only use the codes.  <integer>s are those of IntModel.v.
    Hash states: none of the functions modelled here makes its code depend on
    an address, so the hash state they return is the one they were given. *)
From Verif Require Import Base IntModel TableModel.
Local Open Scope Z_scope.
Local Open Scope outcome_scope.

(** ** Characters *)

(** character.dylan:60-68 lowercase?, uppercase?. *)
Definition is_uppercase (c : Z) : bool := (65 <=? c) && (c <=? 90).
Definition is_lowercase (c : Z) : bool := (97 <=? c) && (c <=? 122).
(** character.dylan:33-56, 125-140 as-uppercase, as-lowercase (for a <byte-character>
    through the table of all 256 results). *)
Definition as_uppercase (c : Z) : Z := if is_lowercase c then c + (65 - 97) else c.
Definition as_lowercase (c : Z) : Z := if is_uppercase c then c + (97 - 65) else c.

(** ** Hash codes *)

(** conversion-tagged-integer.dylan:82-88 machine-word-is-integer?. *)
Definition machine_word_is_integer (w : Z) : outcome bool :=
  do s <- ashr w (64 - 2 - 1) ; Val (bool_decide (s = 0) || bool_decide (s = -1)).

(** machine-word-lowlevel.dylan:65-75 machine-word-as-hash-index. *)
Definition machine_word_as_hash_index (w : Z) : outcome Z :=
  do b <- machine_word_is_integer w ;
  if b : bool then coerce_to_integer w else Val (untag (force_tag w)).

(** c-primitives-math.c:570-574 primitive_machine_word_unsigned_rotate_left. *)
Definition rotate_left (w n : Z) : outcome Z :=
  do low <- lshr w (64 - n) ;
  do high <- shl w n ;
  Val (wrap (Z.lor low high)).

(** hashing.dylan:41-54 merge-hash-ids. *)
Definition merge_hash_ids (id1 id2 : Z) (ordered : bool) : outcome Z :=
  do id3 <-
    (if ordered then
       do w <- coerce_to_word id1 ;
       do r <- rotate_left w 5 ;
       machine_word_as_hash_index r
     else Val id1) ;
  Val (int_logxor id2 id3).

(** hashing.dylan:139-141, 201-203: one step of the hash of a character. *)
Definition hash_step (hash code : Z) : outcome Z :=
  do s <- int_ash hash 6 ;
  do a <- int_add s code ;
  int_modulo a 970747.

(** hashing.dylan:130-163 string-hash. *)
Fixpoint string_hash_loop (s : list Z) (hash : Z) : outcome Z :=
  match s with
  | [] => Val hash
  | c :: s => do h <- hash_step hash c ; string_hash_loop s h
  end.

Definition next_hash (s : list Z) (hash index : Z) : outcome Z :=
  do c <- zread s index ;
  do a <- int_add c 232333 ;
  merge_hash_ids hash a true.

Definition string_hash (s : list Z) : outcome Z :=
  let len := Z.of_nat (length s) in
  if bool_decide (len <= 30) then string_hash_loop s len
  else
    do h <- next_hash s len 0 ;
    do m <- int_ash len (-1) ;
    do h <- next_hash s h m ;
    do e <- int_sub len 1 ;
    next_hash s h e.

(** hashing.dylan:196-205 case-insensitive-string-hash-2 (the method on
    <simple-byte-vector>, 207-216, is the same); [n] is [e - i]. *)
Fixpoint ci_hash_loop (str : list Z) (n : nat) (i hash : Z) : outcome Z :=
  match n with
  | O => Val hash
  | S n =>
    do c <- zread str i ;
    do h <- hash_step hash (int_logand c 159) ;
    ci_hash_loop str n (i + 1) h
  end.
Definition ci_string_hash_2 (str : list Z) (s e : Z) : outcome Z :=
  ci_hash_loop str (Z.to_nat (e - s)) s 0.

(** hashing.dylan:188-194 case-insensitive-string-hash. *)
Definition ci_string_hash (str : list Z) : outcome Z :=
  ci_string_hash_2 str 0 (Z.of_nat (length str)).

(** hashing.dylan:225-239 collection-hash: the loop over the (key, element)
    pairs in the order of the iteration. *)
Fixpoint collection_hash_loop {K E} (key_hash : K -> Z) (element_hash : E -> Z) (ordered : bool)
    (col : list (K * E)) (id : Z) : outcome Z :=
  match col with
  | [] => Val id
  | (k, e) :: col =>
    do c <- merge_hash_ids (element_hash e) (key_hash k) true ;
    do id <- merge_hash_ids id c ordered ;
    collection_hash_loop key_hash element_hash ordered col id
  end.
Definition collection_hash {K E} (key_hash : K -> Z) (element_hash : E -> Z)
    (col : list (K * E)) (ordered : bool) : outcome Z :=
  collection_hash_loop key_hash element_hash ordered col 0.

(** hashing.dylan:249-263 sequence-hash, values-hash. *)
Fixpoint sequence_hash_loop {E} (element_hash : E -> Z) (l : list E) (id : Z) : outcome Z :=
  match l with
  | [] => Val id
  | e :: l =>
    do id <- merge_hash_ids id (element_hash e) true ; sequence_hash_loop element_hash l id
  end.
Definition sequence_hash {E} (element_hash : E -> Z) (l : list E) : outcome Z :=
  sequence_hash_loop element_hash l 0.

(** Objects that [object-hash] hashes by value (hashing.dylan:88-128). *)
Inductive value :=
| VInteger (n : Z)
| VBoolean (b : bool)
| VCharacter (code : Z)
| VWord (w : Z)
| VDouble (low high : Z)
| VSingle (bits : Z).

Definition object_hash (v : value) : outcome Z :=
  match v with
  | VInteger n => Val n
  | VBoolean b => Val (if b then 144223 else 191999)
  | VCharacter c => int_add c 232333
  | VWord w => machine_word_as_hash_index w
  | VDouble l h =>
    do hl <- machine_word_as_hash_index l ;
    do hh <- machine_word_as_hash_index h ;
    merge_hash_ids hl hh true
  | VSingle b => machine_word_as_hash_index b
  end.

(** ** String tests *)

(** string.dylan:222-234: the [for] loop of [=]; [eq] is the value of the
    explicit step clause. *)
Fixpoint equal_loop (same : Z -> Z -> bool) (s1 s2 : list Z) (eq : bool) : bool :=
  match s1, s2 with
  | c1 :: s1, c2 :: s2 => if eq then equal_loop same s1 s2 (same c1 c2) else eq
  | _, _ => eq
  end.
Definition string_equal (s1 s2 : list Z) : bool :=
  if bool_decide (length s1 <> length s2) then false
  else equal_loop Z.eqb s1 s2 true.

(** string.dylan:237-249 case-insensitive-equal. *)
Definition same_letter (c1 c2 : Z) : bool :=
  (c1 =? c2) || (as_lowercase c1 =? as_lowercase c2).
Definition case_insensitive_equal (s1 s2 : list Z) : bool :=
  if bool_decide (length s1 <> length s2) then false
  else equal_loop same_letter s1 s2 true.

(** symbol-table.dylan:25-38 case-insensitive-string-equal-2 (the method on
    <simple-byte-vector>, 40-53, is the same); [n] is [e2 - i]. *)
Fixpoint ci_equal_loop (s1 s2 : list Z) (start : Z) (n : nat) (i : Z) : outcome bool :=
  match n with
  | O => Val true
  | S n =>
    do c1 <- zread s1 (i - start) ;
    do c2 <- zread s2 i ;
    if same_letter c1 c2 then ci_equal_loop s1 s2 start n (i + 1) else Val false
  end.
Definition ci_equal_2 (s1 s2 : list Z) (s e : Z) : outcome bool :=
  if bool_decide (Z.of_nat (length s1) = e - s)
  then ci_equal_loop s1 s2 s (Z.to_nat (e - s)) s else Val false.

(** symbol-table.dylan:17-23 case-insensitive-string-equal. *)
Definition ci_string_equal (s1 s2 : list Z) : outcome bool :=
  ci_equal_2 s1 s2 0 (Z.of_nat (length s2)).

(** ** Table protocols *)

(** A protocol whose codes do not depend on addresses: the hash state never
    becomes stale.  The functions are made total for TableModel.v; on strings of
    character codes they always return (C09_strings, C09_case_insensitive,
    C09_symbols). *)
Definition value_protocol {K} (same : K -> K -> bool) (hash : K -> Z) : protocol K unit := {|
  test := same; hashf _ k := (hash k, tt); hs_new := tt;
  hs_merge _ _ := tt; hs_stale _ _ := false |}.

Definition val_or {A} (d : A) (o : outcome A) : A := match o with Val x => x | _ => d end.

(** table.dylan:1757-1761: <string-table>. *)
Definition string_protocol : protocol (list Z) unit :=
  value_protocol string_equal (fun s => val_or 0 (string_hash s)).
(** table-extensions.dylan:36-40: <case-insensitive-string-table>. *)
Definition ci_protocol : protocol (list Z) unit :=
  value_protocol case_insensitive_equal (fun s => val_or 0 (ci_string_hash s)).
(** symbol-table.dylan:11-15: <symbol-table>. *)
Definition symbol_protocol : protocol (list Z) unit :=
  value_protocol (fun s1 s2 => val_or false (ci_string_equal s1 s2))
    (fun s => val_or 0 (ci_string_hash s)).

(** ** Symbols *)

(** A symbol is an object with a name; [names] are the names of all symbols
    ever allocated, a symbol is its position.  [oblist] is the C run-time's
    vector of symbols (c-run-time.c:3592-3596), used until the Dylan library is
    initialised; [symbols] is the table [*symbols*] (symbol-table.dylan:55-60)
    and [booted] the flag [*symbols-booted?*].
    Simplification: [*symbols*] is weak in its values; here no entry is dropped
    by the collector, as if every symbol stayed referenced. *)
Notation stable := (table (list Z) nat unit).
Record sworld := SWorld {
  names : list (list Z);
  oblist : list nat;
  booted : bool;
  symbols : stable;
}.

Definition initial_symbol_table_size : Z := 5 * 1024.

(** symbol-table.dylan:63-109 gethash-or-set.  The hash state passed on is that
    of the vector. *)
Fixpoint gethash_or_set (fuel : nat) (t : stable) (key : list Z) (new : nat)
  : outcome (nat * stable) :=
  match fuel with
  | O => NoFuel
  | S f =>
    do tv <- cur_vec t ;
    let tok := token tv in
    let '(id, _, c) := hash symbol_protocol (clk t) key in
    let t := with_clk t c in
    do ' (index, fkey) <- search symbol_protocol (keys tv) key id ;
    do ' (r, t, tv) <-
      match fkey with
      | Empty =>
        do ' (ok, tv', c) <-
          try_to_puthash_new symbol_protocol (clk t) tv tok (hstate tv) index key new ;
        Val (if ok : bool then Some new else None, set_vec (with_clk t c) (current t) tv', tv')
      | _ =>
        do v <- zread (vals tv) index ;
        Val (match v with
             | VVal v => if token_valid tv tok then Some v else None
             | _ => None
             end, t, tv)
      end ;
    match r with
    | Some v => Val (v, t)
    | None =>
      do t <- puthash_failed symbol_protocol default_grow_size t tv tok ;
      gethash_or_set f t key new
    end
  end.

(** symbol-table.dylan:140-194 make-symbol, for the whole string; a new symbol
    gets the identity [new]. *)
Fixpoint make_symbol (fuel : nat) (t : stable) (str : list Z) (new : nat)
  : outcome (nat * stable) :=
  match fuel with
  | O => NoFuel
  | S f =>
    do tv <- cur_vec t ;
    let tok := token tv in
    let '(id, _, c) := hash symbol_protocol (clk t) str in
    let t := with_clk t c in
    do ' (index, fkey) <- search symbol_protocol (keys tv) str id ;
    match fkey with
    | Empty =>
      let '(need, c) := needs_rehash symbol_protocol (clk t) tv tok in
      let t := with_clk t c in
      if need then
        do t <- rehash_table symbol_protocol default_grow_size t false ;
        make_symbol f t str new
      else
        do ' (ok, tv', c) <-
          try_to_puthash_new symbol_protocol (clk t) tv tok (hstate tv) index str new ;
        let t := set_vec (with_clk t c) (current t) tv' in
        if ok : bool then Val (new, t) else gethash_or_set f t str new
    | _ =>
      do v <- zread (vals tv) index ;
      match v with
      | VVal v =>
        if token_valid tv tok then Val (v, t) else make_symbol f t str new
      | _ => make_symbol f t str new
      end
    end
  end.

(** strncasecmp(s1, s2, n) == 0 in the C locale: the comparison stops at a null
    character. *)
Fixpoint strncasecmp_eq (s1 s2 : list Z) (n : nat) : bool :=
  match n, s1, s2 with
  | O, _, _ => true
  | S n, c1 :: s1, c2 :: s2 =>
    if as_lowercase c1 =? as_lowercase c2 then
      if c1 =? 0 then true else strncasecmp_eq s1 s2 n
    else false
  | S _, [], [] => true
  | S _, _, _ => false
  end.

(** c-run-time.c:3603-3634 primitive_string_as_symbol_using_symbol; the vector
    that grows by 64 elements at a time is a list. *)
Definition oblist_matches (names : list (list Z)) (str : list Z) (x : nat) : bool :=
  match names !! x with
  | Some n => (length n =? length str)%nat && strncasecmp_eq n str (length str)
  | None => false
  end.
Definition string_as_symbol (w : sworld) (str : list Z) : nat * sworld :=
  match find (oblist_matches (names w) str) (oblist w) with
  | Some x => (x, w)
  | None =>
    let x := length (names w) in
    (x, SWorld (names w ++ [str]) (oblist w ++ [x]) (booted w) (symbols w))
  end.

(** symbol-table.dylan:121-126 %install-boot-symbols. *)
Fixpoint install_loop (fuel : nat) (names : list (list Z)) (xs : list nat) (t : stable)
  : outcome stable :=
  match xs with
  | [] => Val t
  | x :: xs =>
    do n <- vread names x ;
    do t <- puthash symbol_protocol default_grow_size fuel t n x ;
    install_loop fuel names xs t
  end.

(** The requests.  [SMake s]: as(<symbol>, s) (symbol.dylan:10-13,
    symbol-table.dylan:128-135); [SResolve s]: a library that contains the
    literal symbol named [s] is loaded and its symbol object is resolved
    (symbol-table.dylan:111-118, c-run-time.c:3641-3645); [SBoot]: the Dylan
    library is initialised.  After that a request uses up a position of [names]
    whether or not it allocates a symbol. *)
Inductive sop := SMake (s : list Z) | SResolve (s : list Z) | SBoot.

Definition symbol_fuel (t : stable) : nat := retry_fuel t.

Definition sstep (w : sworld) (o : sop) : outcome (option nat * sworld) :=
  match o with
  | SMake s =>
    if booted w then
      let new := length (names w) in
      do ' (x, t) <- make_symbol (symbol_fuel (symbols w)) (symbols w) s new ;
      Val (Some x, SWorld (names w ++ [s]) (oblist w) true t)
    else let '(x, w) := string_as_symbol w s in Val (Some x, w)
  | SResolve s =>
    if booted w then
      let new := length (names w) in
      do ' (x, t) <- gethash_or_set (symbol_fuel (symbols w)) (symbols w) s new ;
      Val (Some x, SWorld (names w ++ [s]) (oblist w) true t)
    else let '(x, w) := string_as_symbol w s in Val (Some x, w)
  | SBoot =>
    if booted w then Val (None, w)
    else
      do t <- install_loop (symbol_fuel (symbols w)) (names w) (oblist w) (symbols w) ;
      Val (None, SWorld (names w) (oblist w) true t)
  end.

Fixpoint srun (w : sworld) (os : list sop) : outcome (list (option nat) * sworld) :=
  match os with
  | [] => Val ([], w)
  | o :: os =>
    do ' (r, w) <- sstep w o ;
    do ' (rs, w) <- srun w os ;
    Val (r :: rs, w)
  end.
