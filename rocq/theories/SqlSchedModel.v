(** Model of the two schedulers of the SQL store: operations on objects (ecore/sqlstore.go:1036-1377) and SQL
    statements (ecore/sqlbase.go:23-267), both on top of [SchedModel]. *)
From Coq Require Import String.
From Verif Require Import Base SchedModel.
Open Scope nat_scope.

(** ** Operations on objects *)

(** objectFeature, sqlstore.go:1036-1039; [None] is Go nil *)
Definition key : Type := (option nat * option nat)%type.
Definition key_dec (a b : key) : {a = b} + {a <> b}.
Proof. repeat decide equality. Defined.

(** the dynamic type of a value: nil, an EObject, or anything else *)
Inductive value := VNil | VObj (o : nat) | VData (z : Z).

Inductive cmd := CGet | CSet | CUnSet | COther.

(** operation, lines 444-457; [c_contents] is what op.object.EAllContents() yields when op.contents is set *)
Record call := mkCall {
  c_cmd : cmd;
  c_write : bool;
  c_object : option nat;
  c_feature : option nat;
  c_contents : list nat;
  c_index : Z;
  c_value : value }.

Definition is_obj (o : nat) (k : key) : bool := match fst k with Some x => Nat.eqb x o | None => false end.

(** the features under which operations on [o] are registered: for feature := range s.objectOperations[o] *)
Definition features_of (r : regs key) (o : nat) : list key :=
  filter (fun k => is_obj o k && match snd k with Some _ => true | None => false end) (map fst r).

(** the objects under which operations are registered: for object := range s.objectOperations *)
Definition objects_of (r : regs key) : list nat :=
  nodup Nat.eq_dec (flat_map (fun k => match fst k with Some o => [o] | None => [] end) (map fst r)).

(** objectFeaturesIterator, lines 1044-1081 *)
Definition objectFeatures (r : regs key) (of : key) : list key :=
  match of with
  | (None, _) => (None, None) :: flat_map (fun o => (Some o, None) :: features_of r o) (objects_of r)
  | (Some o, None) => (Some o, None) :: features_of r o
  | (Some o, Some f) => [(Some o, Some f)]
  end.

(** allObjectFeatures, lines 1131-1147 *)
Definition allObjectFeatures (c : call) : list key :=
  (c_object c, c_feature c)
  :: (match c_object c with Some _ => map (fun o => (Some o, None)) (c_contents c) | None => [] end)
  ++ (match c_value c with
      | VObj v => match c_object c with
                  | Some o => if Nat.eqb v o then [] else [(Some v, None)]
                  | None => [(Some v, None)]
                  end
      | _ => []
      end).

(** the loop of lines 1155-1162: the iterator looks at the lists while they grow *)
Fixpoint registered (wr : nat -> bool) (w : bool) (i : nat) (r : regs key) (lofs : list key) : list key :=
  match lofs with
  | [] => []
  | lof :: lofs' =>
      let ks := objectFeatures r lof in
      ks ++ registered wr w i (fst (register_all key_dec wr w i r ks)) lofs'
  end.

Record store := mkStore {
  sch : state key;
  calls : list call;                  (* the operations, by position *)
  cells : nat -> nat -> value;        (* the columns of single-valued features *)
  results : list (nat * value);       (* what the executed Get operations have read *)
  executed : list nat }.              (* operations whose SQL statement has run *)

Inductive sevent :=
| SCall (c : call)       (* scheduleOperation *)
| SStart (i : nat)       (* op.fn() is called, line 1235 *)
| SEffect (i : nat)      (* its SQL statement runs *)
| SDone (i : nat)        (* op.fn() returned without error, lines 1244-1268 *)
| SErr (i : nat)         (* op.fn() returned an error, lines 1244-1266 *)
| SPanic (i : nat)       (* op.fn() panicked, lines 1179-1194: rejected, nothing is unregistered *)
| SDep (i : nat)         (* a previous operation was rejected, lines 1217-1224: nothing is unregistered *)
| STimeout (i : nat).    (* op.cancel(), line 1112, or the context of the caller *)

Section Store.
(** feature.GetDefaultValue() *)
Variable default : nat -> value.

Definition store_init : store := mkStore init [] (fun _ f => default f) [] [].

Definition with_sch (s : store) (x : option (state key)) : option store :=
  match x with Some y => Some (mkStore y (calls s) (cells s) (results s) (executed s)) | None => None end.

Definition set_cell (m : nat -> nat -> value) (o f : nat) (v : value) : nat -> nat -> value :=
  fun o' f' => if Nat.eqb o' o && Nat.eqb f' f then v else m o' f'.

(** doSet lines 1432-1473 and doUnSet lines 1542-1566 on a column, doGet lines 1379-1392; values are read back as
    they were written; the other commands do not touch the columns of single-valued features *)
Definition effect (s : store) (i : nat) (c : call) : store :=
  match c_object c, c_feature c with
  | Some o, Some f =>
      match c_cmd c with
      | CSet => mkStore (sch s) (calls s) (set_cell (cells s) o f (c_value c)) (results s) (i :: executed s)
      | CUnSet => mkStore (sch s) (calls s) (set_cell (cells s) o f (default f)) (results s) (i :: executed s)
      | CGet => mkStore (sch s) (calls s) (cells s) ((i, cells s o f) :: results s) (i :: executed s)
      | COther => mkStore (sch s) (calls s) (cells s) (results s) (i :: executed s)
      end
  | _, _ => mkStore (sch s) (calls s) (cells s) (results s) (i :: executed s)
  end.

Definition status_of (s : store) (i : nat) : option status := option_map (@t_status key) (nth_error (tasks (sch s)) i).
Definition has (i : nat) (l : list nat) : bool := existsb (Nat.eqb i) l.

(** the event of [SchedModel] behind a call *)
Definition sched_event (s : store) (c : call) : event key :=
  ESched (c_write c)
    (registered (wr_of (tasks (sch s)) (c_write c)) (c_write c) (List.length (tasks (sch s))) (reg (sch s)) (allObjectFeatures c)).

Definition sstep (s : store) (e : sevent) : option store :=
  match e with
  | SCall c =>
      match step key_dec (sch s) (sched_event s c) with
      | Some y => Some (mkStore y (calls s ++ [c]) (cells s) (results s) (executed s))
      | None => None
      end
  | SStart i => with_sch s (step key_dec (sch s) (EStart i))
  | SEffect i =>
      match status_of s i, nth_error (calls s) i with
      | Some Running, Some c => if has i (executed s) then None else Some (effect s i c)
      | _, _ => None
      end
  | SDone i => if has i (executed s) then with_sch s (step key_dec (sch s) (EDone i)) else None
  | SErr i => with_sch s (step key_dec (sch s) (EErr i))
  | SPanic i => with_sch s (step key_dec (sch s) (EFail i))
  | SDep i => with_sch s (step key_dec (sch s) (EDep i))
  | STimeout i => with_sch s (step key_dec (sch s) (ECancel i))
  end.

Fixpoint srun (s : store) (tr : list sevent) : option store :=
  match tr with
  | [] => Some s
  | e :: tr' => match sstep s e with Some s' => srun s' tr' | None => None end
  end.

(** getLastOperation(operationWrite, object, feature, index), lines 1277-1290, and the value of that operation *)
Definition last_pending_write (s : store) (o f : nat) (idx : Z) : option value :=
  fold_left (fun acc i => match nth_error (calls s) i with
                          | Some c => if c_write c && (c_index c =? idx)%Z then Some (c_value c) else acc
                          | None => acc
                          end)
    (look key_dec (reg (sch s)) (Some o, Some f)) None.

(** Get on a single-valued feature, lines 1363-1377 *)
Inductive answer := Immediately (v : value) | Schedules (c : call).
Definition get (s : store) (o f : nat) (idx : Z) : answer :=
  match last_pending_write s o f idx with
  | Some v => Immediately v
  | None => Schedules (mkCall CGet false (Some o) (Some f) [] idx VNil)
  end.

End Store.

(** the calls of the API: Set line 1423, UnSet line 1537, AddRoot line 1762, UnRegister line 1845, SetContainer
    line 2202; NO_INDEX is -1 *)
Definition op_get (o f : nat) : call := mkCall CGet false (Some o) (Some f) [] (-1)%Z VNil.
Definition op_set (o f : nat) (v : value) : call := mkCall CSet true (Some o) (Some f) [] (-1)%Z v.
Definition op_unset (o f : nat) : call := mkCall CUnSet true (Some o) (Some f) [] (-1)%Z VNil.
Definition op_add_root : call := mkCall COther true None None [] (-1)%Z VNil.
Definition op_unregister (o : nat) (contents : list nat) : call := mkCall COther true (Some o) None contents (-1)%Z VNil.
Definition op_set_container (o : nat) (container : value) (f : option nat) : call :=
  mkCall COther true (Some o) f [] (-1)%Z container.

(** ** SQL statements *)

(** what the external parser (github.com/rqlite/sql) says about a statement: the tables of the sources of a
    SELECT (getTableIdentifiers, sqlbase.go:40-52), the table of CREATE TABLE, INSERT, DELETE or UPDATE, or
    another kind of statement *)
Inductive stmt := SelectStmt (tables : list string) | WriteStmt (table : string) | OtherStmt.

(** newQuery, lines 54-107: [ok] tells whether parsing ended with io.EOF.  The result is whether the type is
    queryWrite, and the tables; the type of an empty script is neither read nor write, but it has no table *)
Fixpoint scan (l : list stmt) (ok : bool) (w : bool) (tables : list string) : bool * list string :=
  match l with
  | [] => if ok then (w, tables) else (true, [])
  | SelectStmt ts :: l' => scan l' ok false (tables ++ ts)
  | WriteStmt t :: l' => scan l' ok true (tables ++ [t])
  | OtherStmt :: _ => (true, [])
  end.
Definition newQuery (l : list stmt) (ok : bool) : bool * list string :=
  let '(w, ts) := scan l ok false [] in
  (w, if w then ts ++ [""%string] else ts).

Inductive bevent :=
| BCall (l : list stmt) (ok : bool)   (* executeSqlite, lines 137-262 *)
| BStart (i : nat)                    (* the statement starts, line 214 *)
| BDone (i : nat)                     (* it succeeded, lines 229-259 *)
| BFail (i : nat)                     (* it failed, lines 215-217: rejected, nothing is unregistered *)
| BDep (i : nat).                     (* a previous statement was rejected, lines 188-197 *)

Definition bevent_of (e : bevent) : event string :=
  match e with
  | BCall l ok => let '(w, ts) := newQuery l ok in ESched w ts
  | BStart i => EStart i
  | BDone i => EDone i
  | BFail i => EFail i
  | BDep i => EDep i
  end.

Definition bstep (s : state string) (e : bevent) : option (state string) := step string_dec s (bevent_of e).
Fixpoint brun (s : state string) (tr : list bevent) : option (state string) :=
  match tr with
  | [] => Some s
  | e :: tr' => match bstep s e with Some s' => brun s' tr' | None => None end
  end.
