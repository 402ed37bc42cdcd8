(** Model of URIs (ecore/uri.go) and of the URI converter's map (ecore/euriconverter_impl.go).

    A Go string is a list of characters (numbers).  uri.go mixes bytes (strings.Index, slices) and runes
    (normalize); they are the same for the texts considered here, which contain no multi-byte character or
    are only searched and cut at character boundaries.  [None] is a run-time panic; loops have fuel, and
    running out of fuel is also [None]. *)
From Coq Require Import String Ascii.
From Verif Require Import Base.
Open Scope Z_scope.

Notation str := (list Z).
Definition slash : Z := 47.
Definition dot : Z := 46.
Definition colon : Z := 58.
Definition nul : Z := 0.

(** a Go string literal *)
Definition lit (s : string) : str := map (fun a => Z.of_N (N_of_ascii a)) (list_ascii_of_string s).

Definition str_eqb (a b : str) : bool := if list_eq_dec Z.eq_dec a b then true else false.

(** ** Paths *)

(** skip slashes: lines 478-483 and 506-512 *)
Fixpoint skip (fuel : nat) (path : str) (p : Z) : option Z :=
  match fuel with
  | O => None
  | S fuel' =>
      if p <=? zlen path - 1 then
        let? c := zget path p in
        if c =? slash then skip fuel' path (p + 1) else Some p
      else Some p
  end.

(** find the beginning of the next segment, lines 498-514; the flag tells whether no redundant slash was seen *)
Fixpoint next_segment (fuel : nat) (path : str) (p : Z) : option (Z * bool) :=
  match fuel with
  | O => None
  | S fuel' =>
      if p <=? zlen path - 1 then
        let? c := zget path p in
        if negb (c =? slash) then next_segment fuel' path (p + 1)
        else let? q := skip fuel' path (p + 1) in Some (q, q =? p + 1)
      else Some (p, true)
  end.

(** looking at "." or ".." followed by [sep] or the end: line 492 with '/' and lines 587-597 with NUL *)
Definition dots_at (sep : Z) (path : str) (p : Z) : option nat :=
  let last := zlen path - 1 in
  let? c := zget path p in
  if negb (c =? dot) then Some 0%nat
  else if p =? last then Some 1%nat
  else let? c1 := zget path (p + 1) in
       if c1 =? sep then Some 1%nat
       else if negb (c1 =? dot) then Some 0%nat
       else if p + 1 =? last then Some 2%nat
       else let? c2 := zget path (p + 2) in
            Some (if c2 =? sep then 2%nat else 0%nat).

(** lines 490-515 *)
Fixpoint scan (fuel : nat) (path : str) (p : Z) (normal : bool) (ns : Z) : option (bool * Z) :=
  match fuel with
  | O => None
  | S fuel' =>
      if p <=? zlen path - 1 then
        let? d := dots_at slash path p in
        let? r := next_segment fuel' path p in
        let '(q, single) := r in
        scan fuel' path q (normal && Nat.eqb d 0 && single) (ns + 1)
      else Some (normal, ns)
  end.

Definition fuel_of (path : str) : nat := S (S (length path)).

(** needsNormalization, lines 471-521 *)
Definition needsNormalization (path : str) : option Z :=
  let? p := skip (fuel_of path) path 0 in
  let? r := scan (fuel_of path) path p (negb (p >? 1)) 0 in
  let '(normal, ns) := r in
  Some (if normal then -1 else ns).

(** replace slashes by NUL: lines 540-546 and 564-570 *)
Fixpoint erase (fuel : nat) (path : str) (p : Z) : option (str * Z) :=
  match fuel with
  | O => None
  | S fuel' =>
      if p <=? zlen path - 1 then
        let? c := zget path p in
        if c =? slash then let? path' := zset path p nul in erase fuel' path' (p + 1) else Some (path, p)
      else Some (path, p)
  end.

(** lines 554-572 *)
Fixpoint erase_next (fuel : nat) (path : str) (p : Z) : option (str * Z) :=
  match fuel with
  | O => None
  | S fuel' =>
      if p <=? zlen path - 1 then
        let? c := zget path p in
        if negb (c =? slash) then erase_next fuel' path (p + 1)
        else let? path' := zset path p nul in erase fuel' path' (p + 1)
      else Some (path, p)
  end.

(** lines 548-573 *)
Fixpoint split_loop (fuel : nat) (path : str) (segs : list Z) (p i : Z) : option (str * list Z) :=
  match fuel with
  | O => None
  | S fuel' =>
      if p <=? zlen path - 1 then
        let? segs' := zset segs i p in
        let? r := erase_next fuel' path (p + 1) in
        let '(path', q) := r in
        split_loop fuel' path' segs' q (i + 1)
      else Some (path, segs)
  end.

(** split, lines 534-574 *)
Definition split (path : str) (segs : list Z) : option (str * list Z) :=
  let? r := erase (fuel_of path) path 0 in
  let '(path', p) := r in
  split_loop (fuel_of path) path' segs p 0.

(** find next occurrence of "." or "..": lines 585-600 *)
Fixpoint find_dots (fuel : nat) (path : str) (segs : list Z) (i : Z) : option (Z * nat) :=
  match fuel with
  | O => None
  | S fuel' =>
      let? p := zget segs i in
      let? d := dots_at nul path p in
      match d with
      | O => if i + 1 <? zlen segs then find_dots fuel' path segs (i + 1) else Some (i + 1, O)
      | _ => Some (i, d)
      end
  end.

(** lines 614-618 *)
Fixpoint find_previous (fuel : nat) (segs : list Z) (j : Z) : option Z :=
  match fuel with
  | O => None
  | S fuel' =>
      if 0 <=? j then
        let? q := zget segs j in
        if q =? -1 then find_previous fuel' segs (j - 1) else Some j
      else Some j
  end.

(** line 622 *)
Definition is_dotdot (path : str) (q : Z) : option bool :=
  let? c0 := zget path q in
  if negb (c0 =? dot) then Some false
  else let? c1 := zget path (q + 1) in
       if negb (c1 =? dot) then Some false
       else let? c2 := zget path (q + 2) in Some (c2 =? nul).

(** removeDots, lines 578-629 *)
Fixpoint removeDots (fuel : nat) (path : str) (segs : list Z) (i : Z) : option (list Z) :=
  match fuel with
  | O => None
  | S fuel' =>
      if i <? zlen segs then
        let? r := find_dots (S (length segs)) path segs i in
        let '(i, d) := r in
        match d with
        | O => Some segs
        | S O => let? segs' := zset segs i (-1) in removeDots fuel' path segs' (i + 1)
        | _ =>
            let? j := find_previous (S (length segs)) segs (i - 1) in
            let? segs' :=
              if 0 <=? j then
                let? q := zget segs j in
                let? dd := is_dotdot path q in
                if negb dd then let? s1 := zset segs i (-1) in zset s1 j (-1) else Some segs
              else Some segs in
            removeDots fuel' path segs' (i + 1)
        end
      else Some segs
  end.

(** lines 640-646 *)
Fixpoint first_segment (segs : list Z) : Z :=
  match segs with
  | [] => 0
  | q :: segs' => if q >=? 0 then 0 else 1 + first_segment segs'
  end.

(** lines 654-656 *)
Fixpoint find_colon (fuel : nat) (path : str) (p : Z) : option Z :=
  match fuel with
  | O => None
  | S fuel' =>
      if p <? zlen path then
        let? c := zget path p in
        if negb (c =? colon) && negb (c =? nul) then find_colon fuel' path (p + 1) else Some p
      else Some p
  end.

(** maybeAddLeadingDot, lines 633-668 *)
Definition maybeAddLeadingDot (path : str) (segs : list Z) : option (str * list Z) :=
  let? c0 := zget path 0 in
  if c0 =? nul then Some (path, segs)
  else
    let f := first_segment segs in
    if (f >=? zlen segs) || (f =? 0) then Some (path, segs)
    else
      let? q := zget segs f in
      let? p := find_colon (fuel_of path) path q in
      let? stop := if p >=? zlen path then Some true else let? c := zget path p in Some (c =? nul) in
      if stop then Some (path, segs)
      else
        let? path1 := zset path 0 dot in
        let? path2 := zset path1 1 nul in
        let? segs' := zset segs 0 0 in
        Some (path2, segs').

(** lines 701-703 *)
Fixpoint find_end (fuel : nat) (path : str) (p : Z) : option Z :=
  match fuel with
  | O => None
  | S fuel' =>
      if p <=? zlen path - 1 then
        let? c := zget path p in
        if negb (c =? nul) then find_end fuel' path (p + 1) else Some p
      else Some p
  end.

(** lines 712-716 *)
Fixpoint copy_down (fuel : nat) (path : str) (p q : Z) : option (str * Z * Z) :=
  match fuel with
  | O => None
  | S fuel' =>
      if q <=? zlen path - 1 then
        let? c := zget path q in
        if negb (c =? nul) then let? path' := zset path p c in copy_down fuel' path' (p + 1) (q + 1)
        else Some (path, p, q)
      else Some (path, p, q)
  end.

(** lines 692-723 *)
Fixpoint join_loop (path : str) (segs : list Z) (p : Z) : option (str * Z) :=
  match segs with
  | [] => Some (path, p)
  | q :: segs' =>
      if q =? -1 then join_loop path segs' p
      else if p =? q then
        let? p1 := find_end (fuel_of path) path p in
        if p1 <=? zlen path - 1 then
          let? path' := zset path p1 slash in join_loop path' segs' (p1 + 1)
        else join_loop path segs' p1
      else if p <? q then
        let? r := copy_down (fuel_of path) path p q in
        let '(path1, p1, q1) := r in
        if q1 <=? zlen path - 1 then
          let? path2 := zset path1 p1 slash in join_loop path2 segs' (p1 + 1)
        else join_loop path1 segs' p1
      else join_loop path segs' p
  end.

(** join, lines 683-725 *)
Definition join (path : str) (segs : list Z) : option (str * Z) :=
  let? c := zget path 0 in
  if c =? nul then let? path' := zset path 0 slash in join_loop path' segs 1
  else join_loop path segs 0.

(** normalize, lines 428-450 *)
Definition normalize (path : str) : option str :=
  let? ns := needsNormalization path in
  if ns <? 0 then Some path
  else
    let? r := split path (repeat 0 (Z.to_nat ns)) in
    let '(runes, segs) := r in
    let? segs := removeDots (S (length segs)) runes segs 0 in
    let? r := maybeAddLeadingDot runes segs in
    let '(runes, segs) := r in
    let? r := join runes segs in
    let '(runes, newSize) := r in
    zslice runes 0 newSize.

(** ** URIs *)

(** URI, lines 110-120 *)
Record uri := mkURI {
  u_scheme : str; u_username : str; u_password : str; u_host : str; u_port : str;
  u_path : str; u_query : str; u_fragment : str; u_raw : str }.

(** the weak map from texts to URIs, lines 133-140: whatever it still contains *)
Definition cache := str -> option uri.

(** strings.Builder and [indexes]: lines 143-149 *)
Record builder := mkB { b_text : str; b_index : nat -> Z * Z }.
Definition write_string (s : str) (b : builder) : builder := mkB (b_text b ++ s) (b_index b).
Definition write_component (c : nat) (s : str) (b : builder) : builder :=
  mkB (b_text b ++ s) (fun n => if Nat.eqb n c then (zlen (b_text b), zlen (b_text b) + zlen s) else b_index b n).
Definition nonempty (s : str) : bool := negb (zlen s =? 0).

(** NewURIFromComponents, lines 142-203 *)
Definition build (scheme username password host port path query fragment : str) : builder :=
  let b := mkB [] (fun _ => (0, 0)) in
  let b := if nonempty scheme then write_string [colon] (write_component 0 scheme b) else b in
  let b :=
    if nonempty username || nonempty password || nonempty host || nonempty port then
      let b := write_string [slash; slash] b in
      let b :=
        if nonempty username || nonempty password then
          let b := write_component 1 username b in
          let b := if nonempty password then write_component 2 password (write_string [colon] b) else b in
          write_string [64] b
        else b in
      let b := write_component 3 host b in
      if nonempty port then write_component 4 port (write_string [colon] b) else b
    else b in
  let b := write_component 5 path b in
  let b := if nonempty query then write_component 6 query (write_string [63] b) else b in
  if nonempty fragment then write_component 7 fragment (write_string [35] b) else b.

Definition newURIFromComponents (k : cache) (scheme username password host port path query fragment : str) : option uri :=
  let b := build scheme username password host port path query fragment in
  let raw := b_text b in
  match k raw with
  | Some u => Some u
  | None =>
      let get c := zslice raw (fst (b_index b c)) (snd (b_index b c)) in
      let? scheme := get 0%nat in let? username := get 1%nat in let? password := get 2%nat in let? host := get 3%nat in
      let? port := get 4%nat in let? path := get 5%nat in let? query := get 6%nat in let? fragment := get 7%nat in
      Some (mkURI scheme username password host port path query fragment raw)
  end.

(** IsAbsolute, IsOpaque: lines 269-275 *)
Definition isAbsolute (u : uri) : bool := negb (zlen (u_scheme u) =? 0).
Definition isOpaque (u : uri) : bool := zlen (u_path u) =? 0.

Fixpoint is_prefix (p s : str) : bool :=
  match p, s with
  | [], _ => true
  | x :: p', y :: s' => (x =? y) && is_prefix p' s'
  | _, _ => false
  end.
(** strings.Index *)
Fixpoint index (s sub : str) : Z :=
  if is_prefix sub s then 0
  else match s with
       | [] => -1
       | _ :: s' => let i := index s' sub in if i =? -1 then -1 else 1 + i
       end.
(** strings.LastIndexByte *)
Fixpoint last_index (s : str) (c : Z) : Z :=
  match s with
  | [] => -1
  | x :: s' => let i := last_index s' c in if i =? -1 then (if x =? c then 0 else -1) else 1 + i
  end.
Definition has_suffix_slash (s : str) : bool := match rev s with c :: _ => c =? slash | [] => false end.

(** Authority, lines 283-299 *)
Definition authority (u : uri) : option str :=
  if zlen (u_host u) =? 0 then Some []
  else
    let hostIndex := index (u_raw u) (u_host u) in
    let first := if nonempty (u_username u) then index (u_raw u) (u_username u) else hostIndex in
    let last := hostIndex + zlen (u_host u) in
    let last := if nonempty (u_port u) then last + zlen (u_port u) + 1 else last in
    zslice (u_raw u) first last.

(** Normalize, lines 305-325 *)
Definition uri_normalize (k : cache) (u : uri) : option uri :=
  if isOpaque u then Some u
  else
    let? np := normalize (u_path u) in
    if str_eqb np (u_path u) then Some u
    else newURIFromComponents k (u_scheme u) (u_username u) (u_password u) (u_host u) (u_port u) np (u_query u) (u_fragment u).

(** resolvePath, lines 727-742 *)
Definition resolvePath (base child : str) : option str :=
  let i := last_index base slash in
  let? dir := if i >=? 0 then zslice base 0 (i + 1) else Some [] in
  normalize (if zlen child =? 0 then dir else dir ++ child).

(** Resolve, lines 327-356 *)
Definition resolve (k : cache) (u ref : uri) : option uri :=
  if isOpaque ref || isOpaque u then Some ref
  else
    let? refAuthority := authority ref in
    if (zlen (u_scheme ref) =? 0) && (zlen refAuthority =? 0) && (zlen (u_path ref) =? 0) && negb (zlen (u_fragment ref) =? 0) && (zlen (u_query ref) =? 0) then
      if (zlen (u_fragment u) =? 0) && str_eqb (u_fragment ref) (u_fragment u) then Some u
      else newURIFromComponents k (u_scheme u) (u_username u) (u_password u) (u_host u) (u_port u) (u_path u) (u_query u) (u_fragment ref)
    else if negb (zlen (u_scheme ref) =? 0) then Some ref
    else if zlen refAuthority =? 0 then
      let? path := match u_path ref with
                   | c :: _ => if c =? slash then Some (u_path ref) else resolvePath (u_path u) (u_path ref)
                   | [] => resolvePath (u_path u) (u_path ref)
                   end in
      newURIFromComponents k (u_scheme u) (u_username u) (u_password u) (u_host u) (u_port u) path (u_query ref) (u_fragment ref)
    else newURIFromComponents k (u_scheme u) (u_username ref) (u_password ref) (u_host ref) (u_port ref) (u_path ref) (u_query ref) (u_fragment ref).

(** Relativize, lines 358-381 *)
Definition relativize (k : cache) (u ref : uri) : option uri :=
  if isOpaque ref || isOpaque u then Some ref
  else if negb (str_eqb (u_scheme u) (u_scheme ref)) then Some ref
  else
    let? a1 := authority u in
    let? a2 := authority ref in
    if negb (str_eqb a1 a2) then Some ref
    else
      let? bp := normalize (u_path u) in
      let? cp := normalize (u_path ref) in
      let relative (bp : str) :=
        let? rest := zslice cp (zlen bp) (zlen cp) in
        newURIFromComponents k [] [] [] [] [] rest (u_query ref) (u_fragment ref) in
      if str_eqb bp cp then relative bp
      else
        let? bp := if has_suffix_slash bp then Some bp else zslice bp 0 (last_index bp slash + 1) in
        if negb (is_prefix bp cp) then Some ref else relative bp.

(** TrimFragment and TrimQuery, lines 383-407 *)
Definition trimFragment (k : cache) (u : uri) : option uri :=
  newURIFromComponents k (u_scheme u) (u_username u) (u_password u) (u_host u) (u_port u) (u_path u) (u_query u) [].
Definition trimQuery (k : cache) (u : uri) : option uri :=
  newURIFromComponents k (u_scheme u) (u_username u) (u_password u) (u_host u) (u_port u) (u_path u) [] (u_fragment u).

(** ReplacePrefix, lines 409-422; the inner [option] is a nil result *)
Definition replacePrefix (k : cache) (u old new : uri) : option (option uri) :=
  if negb (str_eqb (u_scheme u) (u_scheme old)) || negb (str_eqb (u_username u) (u_username old)) || negb (str_eqb (u_password u) (u_password old))
     || negb (str_eqb (u_host u) (u_host old)) || negb (str_eqb (u_port u) (u_port old)) then Some None
  else
    let oldLen := zlen (u_path old) in
    if zlen (u_path u) >=? oldLen then
      let? pre := zslice (u_path u) 0 oldLen in
      if str_eqb pre (u_path old) then
        let? rest := zslice (u_path u) oldLen (zlen (u_path u)) in
        let? r := newURIFromComponents k (u_scheme new) (u_username u) (u_password u) (u_host u) (u_port u) (u_path new ++ rest) (u_query u) (u_fragment u) in
        Some (Some r)
      else Some None
    else Some None.

(** Equals on different pointers, lines 424-426 *)
Definition equals (u v : uri) : bool := str_eqb (u_raw u) (u_raw v).

(** ** The converter's map: ecore/euriconverter_impl.go *)

(** getURIFromMap, lines 50-57: [m] in the order in which this iteration of the Go map enumerates it *)
Fixpoint getURIFromMap (k : cache) (m : list (uri * uri)) (u : uri) : option uri :=
  match m with
  | [] => Some u
  | (old, new) :: m' =>
      let? r := replacePrefix k u old new in
      match r with Some v => Some v | None => getURIFromMap k m' u end
  end.

(** Normalize, lines 42-48: [orders] gives, for every recursive call, the order of enumeration of the map, and
    [ks] the state of the URI cache; the result is [None] when the recursion is deeper than [fuel] *)
Fixpoint convert (fuel : nat) (ks : nat -> cache) (orders : nat -> list (uri * uri)) (u : uri) : option uri :=
  match fuel with
  | O => None
  | S fuel' =>
      let? v := getURIFromMap (ks fuel') (orders fuel') u in
      if equals u v then Some v else convert fuel' ks orders v
  end.
