(** Model of the hash tables of the Dylan library
    (sources/dylan/table.dylan), for one thread and an arbitrary collector.

    What is kept: the open-addressing search, the growth policy, the rehash
    tokens, the location dependencies ("hash states") that say whether the
    collector has invalidated the hash codes, both rehash strategies
    (into a copy, in place), deletion markers, [remove-all-keys!] and the
    iteration protocol with its reference counts.

    What is simplified:
    - one thread, so the locks (which only delimit critical sections) are
      dropped, and so are the memory barriers;
    - the collector may run wherever the code computes a hash code or asks
      whether a hash state is stale ([gc] below); how often it runs is an
      arbitrary finite schedule;
    - tables with [values?: #f] (where the value vector is the key vector) are
      not modelled;
    - the two single-float computations [ceiling/(n, 0.75)] and
      [ceiling(n * 0.75)] are exact (single-float rounding gives the same
      integers for n below 3 * 2^20);
    - the [rehashed-bits] words are a list of booleans of the same length as
      the key vector. *)
From Verif Require Import Base.
Open Scope outcome_scope.
Open Scope Z_scope.

(** ** Sizes *)

(** table.dylan:38-60 [$entry-counts]. *)
Definition entry_counts : list Z :=
  [2; 3; 5; 7; 11; 17; 23; 29; 37; 47; 59; 79; 101; 127; 163; 211;
   269; 337; 431; 541; 677; 853; 1069; 1361; 1709; 2137; 2677; 3347;
   4201; 5261; 6577; 8231; 10289; 12889; 16127; 20161; 25219; 31531; 39419; 49277;
   61603; 77017; 96281; 120371; 150473; 188107; 235159; 293957;
   367453; 459317; 574157; 717697; 897133; 1121423; 1401791; 1752239;
   2190299; 2737937; 3422429; 4278037; 5347553; 6684443; 8355563; 10444457;
   13055587; 16319519; 20399411; 25499291; 31874149; 39842687; 49803361; 62254207;
   77817767; 97272239; 121590311; 151987889; 189984863; 237481091; 296851369; 371064217;
   463830313].

(** table.dylan:62 [$entry-last]. *)
Definition entry_last : Z := Z.of_nat (length entry_counts) - 1.

(** table.dylan:36 [$minimum-entries]; 28 [$default-table-size]. *)
Definition minimum_entries : Z := 31.
Definition default_table_size : Z := 10.

(** table.dylan:68-88 [search-for-entry-count]: the local method [loop]. *)
Fixpoint count_search_loop (fuel : nat) (needed lower upper : Z) : outcome Z :=
  match fuel with
  | O => NoFuel
  | S f =>
    if lower =? upper then zread entry_counts lower
    else
      let index := Z.shiftr (lower + upper) 1 in
      do elt <- zread entry_counts index ;
      if elt <? needed then count_search_loop f needed (index + 1) upper
      else count_search_loop f needed lower index
  end.

(** table.dylan:68-88 [search-for-entry-count]. *)
Definition search_for_entry_count (needed : Z) : outcome Z :=
  count_search_loop (S (length entry_counts)) needed 0 entry_last.

(** [ceiling/(n, $grow-threshold)] and [ceiling(n * $grow-threshold)] with the
    threshold 0.75 of table.dylan:16, in exact arithmetic (see the header). *)
Definition ceil_div_threshold (n : Z) : Z := - ((- (4 * n)) / 3).
Definition ceil_mul_threshold (n : Z) : Z := - ((- (3 * n)) / 4).

(** table.dylan:18-21 [$minimum-growth-amount]. *)
Definition minimum_growth_amount : Z := ceil_div_threshold default_table_size.

(** table.dylan:93-108 [compute-entry-count]. *)
Definition compute_entry_count (desired : Z) : outcome Z :=
  let desired := if desired <? 0 then 0 else desired in
  let needed := Z.max (ceil_div_threshold desired) minimum_entries in
  do last <- zread entry_counts entry_last ;
  if needed <=? last then search_for_entry_count needed
  else Signal "desired size exceeds maximum table vector size".

(** table.dylan:1047-1051 [default-grow-size]: [ceiling(old * 2.0)]. *)
Definition default_grow_size (old : Z) : outcome Z := Val (2 * old).

(** ** Table vectors *)

(** table.dylan:379-425: a key entry holds the empty marker, the deleted
    marker (or the zero the collector leaves behind), or a key. *)
Inductive slot (K : Type) := Empty | Deleted | Key (k : K).
Arguments Empty {K}.
Arguments Deleted {K}.
Arguments Key {K} k.

(** The same for a value entry. *)
Inductive vslot (V : Type) := VEmpty | VDeleted | VVal (v : V).
Arguments VEmpty {V}.
Arguments VDeleted {V}.
Arguments VVal {V} v.

(** What a table gets from [table-protocol] (table.dylan:1062, 1100-1104) and
    from the collector (hashing.dylan:13-39).  [hashf e k] is the hash function
    applied to [k] after [e] collections, with the hash state it returns;
    [hs_stale h e] is [is-stale?(h)] asked after [e] collections. *)
Record protocol (K HS : Type) := Protocol {
  test : K -> K -> bool;
  hashf : nat -> K -> Z * HS;
  hs_new : HS;
  hs_merge : HS -> HS -> HS;
  hs_stale : HS -> nat -> bool;
}.
Arguments test {K HS} p.
Arguments hashf {K HS} p.
Arguments hs_new {K HS} p.
Arguments hs_merge {K HS} p.
Arguments hs_stale {K HS} p.

(** table.dylan:334-356 [<table-vector>].  A rehash token is an object with a
    mutable [rehashing?] flag (table.dylan:239-262).  [token] is the identity
    of the vector's current token, [rehashing] its flag; tokens that are no
    longer current never become valid again, so their flags are not kept. *)
Record tvec (K V HS : Type) := TVec {
  keys : list (slot K);
  vals : list (vslot V);
  token : nat;
  rehashing : bool;
  additions : Z;
  limit : Z;
  deletions : Z;
  hstate : HS;
  refs : Z;
}.
Arguments TVec {K V HS}.
Arguments keys {K V HS} t.
Arguments vals {K V HS} t.
Arguments token {K V HS} t.
Arguments rehashing {K V HS} t.
Arguments additions {K V HS} t.
Arguments limit {K V HS} t.
Arguments deletions {K V HS} t.
Arguments hstate {K V HS} t.
Arguments refs {K V HS} t.

(** The collector: the number of collections so far, and how many more happen
    at each of the following points where it gets a chance to run. *)
Record clock := Clock { epoch : nat; schedule : list nat }.

Definition gc (c : clock) : clock :=
  match schedule c with
  | [] => c
  | n :: s => Clock (epoch c + n) s
  end.

(** table.dylan:1037-1053 [<table>].  Every vector that was ever allocated for
    the table stays in [vectors], because iteration states keep referring to
    replaced vectors; [current] is the one in the [table-vector] slot. *)
Record table (K V HS : Type) := Table {
  vectors : list (tvec K V HS);
  current : nat;
  initial : Z;
  weak : bool;
  clk : clock;
}.
Arguments Table {K V HS}.
Arguments vectors {K V HS} t.
Arguments current {K V HS} t.
Arguments initial {K V HS} t.
Arguments weak {K V HS} t.
Arguments clk {K V HS} t.

(** table.dylan:1513-1535 [<iteration-state>]; [source] is the position of the
    vector in [vectors]; the dummy key of a state that has not reached an
    entry is [None]. *)
Record istate (K : Type) := IState {
  source : nat;
  stoken : nat;
  skey : option K;
  sindex : Z;
  scount : Z;
  sadditions : Z;
  sdeletions : Z;
}.
Arguments IState {K}.
Arguments source {K} i.
Arguments stoken {K} i.
Arguments skey {K} i.
Arguments sindex {K} i.
Arguments scount {K} i.
Arguments sadditions {K} i.
Arguments sdeletions {K} i.

(** ** The probe sequence *)

(** table.dylan:613-640 [$secondary-strides], [secondary-stride]. *)
Definition secondary_strides : list Z := [5; 7; 11; 13; 17; 19; 23; 29].
Definition secondary_stride (id : Z) : outcome Z :=
  zread secondary_strides (Z.land id 7).

(** table.dylan:644-660 [primary-index]. *)
Definition primary_index (id count : Z) : Z := id mod count.

(** table.dylan:697-703, 752-757: the local method [next-index]. *)
Definition next_index (count stride index : Z) : Z :=
  let next := index - stride in if next <? 0 then next + count else next.

(** table.dylan:686-717 ([do-search]) and 737-771 ([find-rehash-insertion-point])
    contain the same loop with different stopping conditions. *)
Fixpoint probe_loop {K} (fuel : nat) (ks : list (slot K)) (stop : Z -> slot K -> bool)
    (stride index : Z) : outcome (Z * slot K) :=
  match fuel with
  | O => NoFuel
  | S f =>
    do s <- zread ks index ;
    if stop index s then Val (index, s)
    else probe_loop f ks stop stride (next_index (Z.of_nat (length ks)) stride index)
  end.

Definition probe {K} (ks : list (slot K)) (stop : Z -> slot K -> bool) (id : Z)
  : outcome (Z * slot K) :=
  do stride <- secondary_stride id ;
  probe_loop (S (length ks)) ks stop stride (primary_index id (Z.of_nat (length ks))).

Section Table.
Context {K V HS : Type} (P : protocol K HS).
(** The table's [grow-size-function], which is user code and may signal. *)
Context (grow : Z -> outcome Z).

Notation tvec := (tvec K V HS).
Notation table := (table K V HS).
Notation istate := (istate K).

(** table.dylan:686-731 [search]: stop at an empty entry or at a key that
    passes the table's test; deleted entries never match. *)
Definition search_stop (key : K) (_ : Z) (s : slot K) : bool :=
  match s with Empty => true | Deleted => false | Key k => test P key k end.

Definition search (ks : list (slot K)) (key : K) (id : Z) : outcome (Z * slot K) :=
  probe ks (search_stop key) id.

(** table.dylan:733-773 [find-rehash-insertion-point]: stop at an empty or
    deleted entry or at one that has not been rehashed yet. *)
Definition insertion_stop (bits : list bool) (i : Z) (s : slot K) : bool :=
  match s with
  | Empty | Deleted => true
  | Key _ => negb (default false (bits !! Z.to_nat i))
  end.

Definition find_rehash_insertion_point (ks : list (slot K)) (id : Z) (bits : list bool)
  : outcome (Z * slot K) :=
  probe ks (insertion_stop bits) id.

(** table.dylan:449-457 [present-entry-count], [full?]. *)
Definition present_entry_count (tv : tvec) : Z := additions tv - deletions tv.
Definition full (tv : tvec) : bool := limit tv <=? additions tv.

(** table.dylan:252-257 [rehash-token-valid?]. *)
Definition token_valid (tv : tvec) (tok : nat) : bool :=
  negb (rehashing tv) && (token tv =? tok)%nat.

(** table.dylan:490-521 [hash], [hash-for-lookup]. *)
Definition hash (c : clock) (k : K) : Z * HS * clock :=
  let c := gc c in let '(id, h) := hashf P (epoch c) k in (id, h, c).

(** [is-stale?(hash-state(tv))]. *)
Definition is_stale (c : clock) (h : HS) : bool * clock :=
  let c := gc c in (hs_stale P h (epoch c), c).

(** table.dylan:459-464 [needs-rehash?]. *)
Definition needs_rehash (c : clock) (tv : tvec) (tok : nat) : bool * clock :=
  let '(st, c) := is_stale c (hstate tv) in (negb (token_valid tv tok) || st, c).

(** Field updates. *)
Definition with_entries (tv : tvec) (ks : list (slot K)) (vs : list (vslot V)) : tvec :=
  TVec ks vs (token tv) (rehashing tv) (additions tv) (limit tv) (deletions tv)
       (hstate tv) (refs tv).
Definition with_additions (tv : tvec) (a : Z) : tvec :=
  TVec (keys tv) (vals tv) (token tv) (rehashing tv) a (limit tv) (deletions tv)
       (hstate tv) (refs tv).
Definition with_deletions (tv : tvec) (d : Z) : tvec :=
  TVec (keys tv) (vals tv) (token tv) (rehashing tv) (additions tv) (limit tv) d
       (hstate tv) (refs tv).
Definition with_hstate (tv : tvec) (h : HS) : tvec :=
  TVec (keys tv) (vals tv) (token tv) (rehashing tv) (additions tv) (limit tv)
       (deletions tv) h (refs tv).
Definition with_refs (tv : tvec) (r : Z) : tvec :=
  TVec (keys tv) (vals tv) (token tv) (rehashing tv) (additions tv) (limit tv)
       (deletions tv) (hstate tv) r.
(** A new token (table.dylan:248-251 [make-rehash-token(#f)]). *)
Definition with_new_token (tv : tvec) : tvec :=
  TVec (keys tv) (vals tv) (S (token tv)) false (additions tv) (limit tv)
       (deletions tv) (hstate tv) (refs tv).
(** table.dylan:840-846 [mark-rehashing]. *)
Definition mark_rehashing (tv : tvec) : tvec :=
  TVec (keys tv) (vals tv) (token tv) true (additions tv) (limit tv) (deletions tv)
       (hstate tv) (refs tv).

Definition get_vec (t : table) (i : nat) : outcome tvec := vread (vectors t) i.
Definition cur_vec (t : table) : outcome tvec := get_vec t (current t).
Definition set_vec (t : table) (i : nat) (tv : tvec) : table :=
  Table (<[i := tv]> (vectors t)) (current t) (initial t) (weak t) (clk t).
Definition with_clk (t : table) (c : clock) : table :=
  Table (vectors t) (current t) (initial t) (weak t) c.
(** A new vector installed in the table ([table-vector(table) := new]). *)
Definition install (t : table) (tv : tvec) : table :=
  Table (vectors t ++ [tv]) (length (vectors t)) (initial t) (weak t) (clk t).

(** table.dylan:522-573 [make-table-entries], [make-table-vector]. *)
Definition make_table_vector (desired : Z) : outcome tvec :=
  do count <- compute_entry_count desired ;
  let n := Z.to_nat count in
  Val (TVec (replicate n Empty) (replicate n VEmpty) 0 false 0
            (ceil_mul_threshold count) 0 (hs_new P) 0).

(** table.dylan:1106-1114 [initialize]. *)
Definition make_table (size : Z) (wk : bool) (c : clock) : outcome table :=
  do tv <- make_table_vector size ;
  Val (Table [tv] 0 size wk c).

(** table.dylan:774-793 [clear-table-vector!]. *)
Definition clear_table_vector (tv : tvec) : tvec :=
  with_new_token
    (TVec (replicate (length (keys tv)) Empty) (replicate (length (vals tv)) VEmpty)
          (token tv) (rehashing tv) 0 (limit tv) 0 (hs_new P) (refs tv)).

(** ** Rehashing *)

(** table.dylan:848-884 [rehash-into-copy]: the local method [loop], which
    handles the entries at [n-1], ..., 0. *)
Fixpoint copy_loop (n : nat) (src dst : tvec) (st : HS) (count : Z) (c : clock)
  : outcome (tvec * clock) :=
  match n with
  | O => Val (with_hstate (with_additions dst count) st, c)
  | S index =>
    do key <- vread (keys src) index ;
    match key with
    | Empty | Deleted => copy_loop index src dst st count c
    | Key k =>
      let '(id, h, c) := hash c k in
      do ' (j, _) <- search (keys dst) k id ;
      do ks <- zwrite (keys dst) j (Key k) ;
      do v <- vread (vals src) index ;
      do vs <- zwrite (vals dst) j v ;
      copy_loop index src (with_entries dst ks vs) (hs_merge P st h) (count + 1) c
    end
  end.

Definition rehash_into_copy (src dst : tvec) (c : clock) : outcome (tvec * clock) :=
  copy_loop (length (keys src)) src dst (hstate dst) 0 c.

(** The variables of [rehash-in-place]. *)
Record rstate := RState {
  r_keys : list (slot K);
  r_vals : list (vslot V);
  r_bits : list bool;
  r_count : Z;
  r_state : HS;
  r_clk : clock;
}.

(** table.dylan:911-924 [rehash-in-place]: the local method [storenext].  Where
    the code goes on with [loop(nxti, ...)], the model returns to the loop. *)
Fixpoint store_next (fuel : nat) (k : slot K) (v : vslot V) (r : rstate) : outcome rstate :=
  match fuel with
  | O => NoFuel
  | S f =>
    match k with
    | Empty | Deleted => Val r
    | Key key =>
      let '(id, h, c) := hash (r_clk r) key in
      do ' (j, nxtk) <- find_rehash_insertion_point (r_keys r) id (r_bits r) ;
      do nxtv <- zread (r_vals r) j ;
      do ks <- zwrite (r_keys r) j (Key key) ;
      do vs <- zwrite (r_vals r) j v ;
      do bs <- zwrite (r_bits r) j true ;
      store_next f nxtk nxtv
        (RState ks vs bs (r_count r + 1) (hs_merge P (r_state r) h) c)
    end
  end.

(** table.dylan:899-928 [rehash-in-place]: the local method [loop], which
    handles the entries at [n-1], ..., 0. *)
Fixpoint in_place_loop (n : nat) (r : rstate) : outcome rstate :=
  match n with
  | O => Val r
  | S i =>
    do b <- vread (r_bits r) i ;
    if b : bool then in_place_loop i r
    else
      do k <- vread (r_keys r) i ;
      do v <- vread (r_vals r) i ;
      do ks <- vwrite (r_keys r) i Empty ;
      do vs <- vwrite (r_vals r) i VEmpty ;
      do r <- store_next (S (S (length (r_keys r)))) k v
                (RState ks vs (r_bits r) (r_count r) (r_state r) (r_clk r)) ;
      in_place_loop i r
  end.

(** table.dylan:888-958 [rehash-in-place]. *)
Definition rehash_in_place (tv : tvec) (c : clock) : outcome (tvec * clock) :=
  do r <- in_place_loop (length (keys tv))
            (RState (keys tv) (vals tv) (replicate (length (keys tv)) false) 0
                    (hs_new P) c) ;
  Val (with_new_token
         (TVec (r_keys r) (r_vals r) (token tv) (rehashing tv) (r_count r) (limit tv) 0
               (r_state r) (refs tv)),
       r_clk r).

(** table.dylan:966-983 [calculate-real-size]. *)
Definition calculate_real_size (tv : tvec) : Z :=
  Z.of_nat (length (List.filter (fun s => match s with Key _ => true | _ => false end) (keys tv))).

(** table.dylan:985-1009 [rehash-entry-count]. *)
Definition rehash_entry_count (t : table) (tv : tvec) (grow_p : bool) : outcome Z :=
  let present := if weak t then calculate_real_size tv else present_entry_count tv in
  if negb grow_p || (present <? limit tv) then Val (Z.max (initial t) present)
  else
    do new <- grow present ;
    Val (Z.max (present + minimum_growth_amount) new).

(** table.dylan:818-838 [rehash-table]; 803-816 [in-place-rehashable?]. *)
Definition rehash_table (t : table) (grow_p : bool) : outcome table :=
  do tv0 <- cur_vec t ;
  let tv := mark_rehashing tv0 in
  let t := set_vec t (current t) tv in
  if negb grow_p && (refs tv =? 0) then
    do ' (tv', c) <- rehash_in_place tv (clk t) ;
    Val (set_vec (with_clk t c) (current t) tv')
  else
    do desired <- rehash_entry_count t tv grow_p ;
    do dst <- make_table_vector desired ;
    do ' (dst', c) <- rehash_into_copy tv dst (clk t) ;
    Val (install (with_clk t c) dst').

(** ** Operations *)

(** table.dylan:1134-1172 [gethash]; [None] is the case where the key is missing
    (the default is returned, or an error signalled). *)
Fixpoint gethash (fuel : nat) (t : table) (key : K) : outcome (option V * table) :=
  match fuel with
  | O => NoFuel
  | S f =>
    do tv <- cur_vec t ;
    let tok := token tv in
    let '(id, _, c) := hash (clk t) key in
    let t := with_clk t c in
    do ' (index, table_key) <- search (keys tv) key id ;
    match table_key with
    | Empty =>
      let '(need, c) := needs_rehash (clk t) tv tok in
      let t := with_clk t c in
      if need then do t <- rehash_table t false ; gethash f t key
      else Val (None, t)
    | _ =>
      do v <- zread (vals tv) index ;
      match v with
      | VVal x => if token_valid tv tok then Val (Some x, t) else gethash f t key
      | VDeleted => gethash f t key
      | VEmpty => if token_valid tv tok then UB else gethash f t key
      end
    end
  end.

(** table.dylan:1202-1226 [try-to-puthash-old]; [None] is failure. *)
Definition try_to_puthash_old (tv : tvec) (tok : nat) (index : Z) (v : V)
  : outcome (option tvec) :=
  if token_valid tv tok then
    do vs <- zwrite (vals tv) index (VVal v) ;
    Val (Some (with_entries tv (keys tv) vs))
  else Val None.

(** table.dylan:1228-1279 [try-to-puthash-new]; also returns the vector when
    it fails, because the hash state has been merged. *)
Definition try_to_puthash_new (c : clock) (tv : tvec) (tok : nat) (h : HS) (index : Z)
    (key : K) (v : V) : outcome (bool * tvec * clock) :=
  let tv := with_hstate tv (hs_merge P (hstate tv) h) in
  do s <- zread (keys tv) index ;
  let '(st, c) := is_stale c (hstate tv) in
  if match s with Empty => true | _ => false end
     && negb (full tv) && token_valid tv tok && negb st
  then
    let tv := with_additions tv (additions tv + 1) in
    do vs <- zwrite (vals tv) index (VVal v) ;
    do ks <- zwrite (keys tv) index (Key key) ;
    Val (true, with_entries tv ks vs, c)
  else Val (false, tv, c).

(** table.dylan:1304-1329 [puthash]: what happens after a failed store. *)
Definition puthash_failed (t : table) (tv : tvec) (tok : nat) : outcome table :=
  let '(need, c) := needs_rehash (clk t) tv tok in
  let t := with_clk t c in
  if need then rehash_table t (full tv)
  else if full tv then rehash_table t true
  else Val t.

(** table.dylan:1304-1329 [puthash]. *)
Fixpoint puthash (fuel : nat) (t : table) (key : K) (v : V) : outcome table :=
  match fuel with
  | O => NoFuel
  | S f =>
    do tv <- cur_vec t ;
    let tok := token tv in
    let '(id, h, c) := hash (clk t) key in
    let t := with_clk t c in
    do ' (index, fkey) <- search (keys tv) key id ;
    match fkey with
    | Empty =>
      do ' (ok, tv', c) <- try_to_puthash_new (clk t) tv tok h index key v ;
      let t := set_vec (with_clk t c) (current t) tv' in
      if ok : bool then Val t
      else do t <- puthash_failed t tv' tok ; puthash f t key v
    | _ =>
      do r <- try_to_puthash_old tv tok index v ;
      match r with
      | Some tv' => Val (set_vec t (current t) tv')
      | None => do t <- puthash_failed t tv tok ; puthash f t key v
      end
    end
  end.

(** table.dylan:1345-1382 [try-to-remhash]; [None] is failure. *)
Definition try_to_remhash (tv : tvec) (tok : nat) (index : Z) : outcome (option tvec) :=
  do s <- zread (keys tv) index ;
  if match s with Deleted => false | _ => true end && token_valid tv tok then
    do ks <- zwrite (keys tv) index Deleted ;
    do vs <- zwrite (vals tv) index VDeleted ;
    Val (Some (with_deletions (with_entries tv ks vs) (deletions tv + 1)))
  else Val None.

(** table.dylan:1384-1412 [remove-key!]. *)
Fixpoint remove_key (fuel : nat) (t : table) (key : K) : outcome (bool * table) :=
  match fuel with
  | O => NoFuel
  | S f =>
    do tv <- cur_vec t ;
    let tok := token tv in
    let '(id, _, c) := hash (clk t) key in
    let t := with_clk t c in
    do ' (index, fkey) <- search (keys tv) key id ;
    let found := match fkey with Empty => false | _ => true end in
    do r <- (if found : bool then try_to_remhash tv tok index else Val None) ;
    match r with
    | Some tv' => Val (true, set_vec t (current t) tv')
    | None =>
      let '(need, c) := needs_rehash (clk t) tv tok in
      let t := with_clk t c in
      if need then do t <- rehash_table t false ; remove_key f t key
      else if found then remove_key f t key
      else Val (false, t)
    end
  end.

(** table.dylan:1417-1449 [remove-all-keys!]. *)
Definition remove_all_keys (t : table) : outcome table :=
  do tv <- cur_vec t ;
  if additions tv =? 0 then Val t
  else if refs tv =? 0 then Val (set_vec t (current t) (clear_table_vector tv))
  else
    do new <- make_table_vector (initial t) ;
    Val (install (set_vec t (current t) (mark_rehashing tv)) new).

(** table.dylan:1116-1130 [empty?], [size]. *)
Definition table_size (t : table) : outcome Z :=
  do tv <- cur_vec t ; Val (present_entry_count tv).
Definition table_empty (t : table) : outcome bool :=
  do tv <- cur_vec t ; Val (present_entry_count tv =? 0).

(** ** Iteration *)

(** table.dylan:1557-1573 [table-next-state]: the local method [loop] started at
    [n - 1]; [None] when it runs off the end. *)
Fixpoint scan (ks : list (slot K)) (n : nat) : outcome (option (Z * K)) :=
  match n with
  | O => Val None
  | S i =>
    do s <- vread ks i ;
    match s with
    | Empty | Deleted => scan ks i
    | Key k => Val (Some (Z.of_nat i, k))
    end
  end.

(** table.dylan:1551-1577 [table-next-state]; 468-480 the reference counts
    (their saturation at [$maximum-integer] is not modelled). *)
Definition next_state (t : table) (s : istate) : outcome (istate * table) :=
  if sindex s <? 0 then Val (s, t)
  else
    do tv <- get_vec t (source s) ;
    do r <- scan (keys tv) (Z.to_nat (sindex s)) ;
    match r with
    | None =>
      Val (IState (source s) (stoken s) (skey s) (-1) (scount s) (sadditions s) (sdeletions s),
           set_vec t (source s) (with_refs tv (refs tv - 1)))
    | Some (i, k) =>
      Val (IState (source s) (stoken s) (Some k) i (scount s + 1) (sadditions s) (sdeletions s),
           t)
    end.

(** table.dylan:1580-1597 [table-finished-state?]. *)
Definition finished_state (t : table) (s : istate) : outcome (bool * table) :=
  if sindex s <? 0 then
    if negb (weak t) then Val (true, t)
    else
      do tv <- get_vec t (source s) ;
      if (sadditions s =? additions tv) && (sdeletions s =? deletions tv)
      then Val (true, set_vec t (source s) (with_additions (with_deletions tv 0) (scount s)))
      else Val (true, t)
  else Val (false, t).

(** table.dylan:1599-1607 [table-current-key]. *)
Definition current_key (s : istate) : outcome K :=
  if sindex s <? 0 then Signal "exhausted iteration state"
  else match skey s with Some k => Val k | None => UB end.

(** table.dylan:1609-1649 [table-current-element]. *)
Definition current_element (fuel : nat) (t : table) (s : istate) : outcome (V * table) :=
  if sindex s <? 0 then Signal "exhausted iteration state"
  else
    do tv <- get_vec t (source s) ;
    do v <- zread (vals tv) (sindex s) ;
    do k <- zread (keys tv) (sindex s) ;
    if match k with Deleted => false | _ => true end && token_valid tv (stoken s) then
      match v with VVal x => Val (x, t) | _ => UB end
    else
      match v with
      | VDeleted => Signal "current element not found"
      | VEmpty => UB
      | VVal x =>
        do k <- current_key s ;
        do ' (r, t) <- gethash fuel t k ;
        Val (default x r, t)
      end.

(** table.dylan:1651-1692 [table-current-element-setter]. *)
Definition set_current_element (fuel : nat) (t : table) (s : istate) (x : V) : outcome table :=
  if sindex s <? 0 then Signal "exhausted iteration state"
  else
    do tv <- get_vec t (source s) ;
    do vs <- zwrite (vals tv) (sindex s) (VVal x) ;
    let tv := with_entries tv (keys tv) vs in
    let t := set_vec t (source s) tv in
    do k <- zread (keys tv) (sindex s) ;
    if match k with Deleted => true | _ => false end || negb (token_valid tv (stoken s)) then
      do k <- current_key s ;
      puthash fuel t k x
    else Val t.

(** table.dylan:1694-1708 [table-copy-state]. *)
Definition copy_state (t : table) (s : istate) : outcome (istate * table) :=
  do tv <- get_vec t (source s) ;
  Val (s, set_vec t (source s) (with_refs tv (refs tv + 1))).

(** table.dylan:1710-1737 [make-initial-state]. *)
Fixpoint make_initial_state (fuel : nat) (t : table) : outcome (istate * table) :=
  match fuel with
  | O => NoFuel
  | S f =>
    do tv <- cur_vec t ;
    let tok := token tv in
    let '(need, c) := needs_rehash (clk t) tv tok in
    let t := with_clk t c in
    if need then do t <- rehash_table t false ; make_initial_state f t
    else
      let t := set_vec t (current t) (with_refs tv (refs tv + 1)) in
      next_state t (IState (current t) tok None (Z.of_nat (length (keys tv))) 0
                           (additions tv) (deletions tv))
  end.

(** The collector drops the entry at [i] of the current vector of a weak table:
    it overwrites key and value with the zero that reads as the deleted marker
    (table.dylan:362-370, 379-389) and does not touch the counters. *)
Definition purge (t : table) (i : nat) : outcome table :=
  do tv <- cur_vec t ;
  match weak t, keys tv !! i with
  | true, Some (Key _) =>
    Val (set_vec t (current t)
           (with_entries tv (<[i := Deleted]> (keys tv)) (<[i := VDeleted]> (vals tv))))
  | _, _ => Val t
  end.

(** ** Histories *)

(** The operations of the API; iteration states are named by the order in
    which they were created. *)
Inductive op :=
| OGet (k : K)                      (* element(table, k, default: ...) *)
| OPut (k : K) (v : V)              (* table[k] := v *)
| ORemove (k : K)                   (* remove-key!(table, k) *)
| OClear                            (* remove-all-keys!(table) *)
| OSize                             (* size(table) *)
| OEmpty                            (* empty?(table) *)
| OIter                             (* forward-iteration-protocol(table) *)
| ONext (i : nat)                   (* next-state *)
| OFinished (i : nat)               (* finished-state? *)
| OKey (i : nat)                    (* current-key *)
| OElement (i : nat)                (* current-element *)
| OSetElement (i : nat) (v : V)     (* current-element-setter *)
| OCopy (i : nat)                   (* copy-state *)
| OPurge (i : nat).                 (* the collector drops a weak entry *)

(** What they return.  [RCursor] is what can be observed of an iteration
    state: the current key, or that it is finished. *)
Inductive res :=
| RUnit
| RBool (b : bool)
| RInt (z : Z)
| RValue (v : option V)
| RKey (k : K)
| RCursor (k : option K)
| RError.

Record world := World { tab : table; states : list istate }.

Definition cursor (s : istate) : option K := if sindex s <? 0 then None else skey s.

(** Enough for every retry: a collection causes at most two. *)
Definition retry_fuel (t : table) : nat := (2 * length (schedule (clk t)) + 6)%nat.

(** The errors of the iteration protocol leave everything as it was. *)
Definition iteration_error (m : string) : bool :=
  String.eqb m "exhausted iteration state" || String.eqb m "current element not found".

Definition on_state (w : world) (i : nat) (f : istate -> outcome (res * world))
  : outcome (res * world) :=
  match states w !! i with None => Val (RError, w) | Some s => f s end.

Definition step (w : world) (o : op) : outcome (res * world) :=
  let t := tab w in
  let fuel := retry_fuel t in
  match o with
  | OGet k => do ' (r, t) <- gethash fuel t k ; Val (RValue r, World t (states w))
  | OPut k v => do t <- puthash fuel t k v ; Val (RUnit, World t (states w))
  | ORemove k => do ' (r, t) <- remove_key fuel t k ; Val (RBool r, World t (states w))
  | OClear => do t <- remove_all_keys t ; Val (RUnit, World t (states w))
  | OSize => do n <- table_size t ; Val (RInt n, w)
  | OEmpty => do b <- table_empty t ; Val (RBool b, w)
  | OIter =>
    do ' (s, t) <- make_initial_state fuel t ;
    Val (RCursor (cursor s), World t (states w ++ [s]))
  | ONext i => on_state w i (fun s =>
    do ' (s', t) <- next_state t s ;
    Val (RCursor (cursor s'), World t (<[i := s']> (states w))))
  | OFinished i => on_state w i (fun s =>
    do ' (b, t) <- finished_state t s ; Val (RBool b, World t (states w)))
  | OKey i => on_state w i (fun s =>
    match current_key s with
    | Val k => Val (RKey k, w) | Signal _ => Val (RError, w) | UB => UB | NoFuel => NoFuel
    end)
  | OElement i => on_state w i (fun s =>
    match current_element fuel t s with
    | Val (v, t) => Val (RValue (Some v), World t (states w))
    | Signal m => if iteration_error m then Val (RError, w) else Signal m
    | UB => UB | NoFuel => NoFuel
    end)
  | OSetElement i v => on_state w i (fun s =>
    match set_current_element fuel t s v with
    | Val t => Val (RUnit, World t (states w))
    | Signal m => if iteration_error m then Val (RError, w) else Signal m
    | UB => UB | NoFuel => NoFuel
    end)
  | OCopy i => on_state w i (fun s =>
    do ' (s', t) <- copy_state t s ;
    Val (RCursor (cursor s'), World t (states w ++ [s'])))
  | OPurge i => do t <- purge t i ; Val (RUnit, World t (states w))
  end.

Fixpoint run (w : world) (os : list op) : outcome (list res * world) :=
  match os with
  | [] => Val ([], w)
  | o :: os =>
    do ' (r, w) <- step w o ;
    do ' (rs, w) <- run w os ;
    Val (r :: rs, w)
  end.

End Table.
