(** What users expect from paths and URIs. *)
From Coq Require Import Relations.
From Verif Require Import Base UriModel.
Open Scope Z_scope.

(** ** Paths *)

(** a segment of a path: its place among the segments of the original path, its text, and whether a slash follows *)
Record segment := mkSeg { place : nat; text : str; followed : bool }.

Definition absolute (p : str) : bool := match p with c :: _ => c =? slash | [] => false end.

(** the non-empty segments of a path; [cur] is the beginning of the current one *)
Fixpoint segments_from (n : nat) (cur : str) (p : str) : list segment :=
  match p with
  | [] => match cur with [] => [] | _ => [mkSeg n cur false] end
  | c :: p' =>
      if c =? slash then
        match cur with
        | [] => segments_from n [] p'
        | _ => mkSeg n cur true :: segments_from (S n) [] p'
        end
      else segments_from n (cur ++ [c]) p'
  end.
Definition segments (p : str) : list segment := segments_from 0 [] p.

Definition is_dot (s : segment) : Prop := text s = [dot].
Definition is_dots (s : segment) : Prop := text s = [dot; dot].

(** RFC 2396, 5.2 step 6: remove "." segments, and any "x/.." where x is neither "." nor ".." *)
Inductive removes : list segment -> list segment -> Prop :=
| remove_dot a s b : is_dot s -> removes (a ++ s :: b) (a ++ b)
| remove_parent a s t b : ~ is_dot s -> ~ is_dots s -> is_dots t -> removes (a ++ s :: t :: b) (a ++ b).
Definition reduced (l : list segment) : Prop := forall l', ~ removes l l'.
Definition reduces : list segment -> list segment -> Prop := clos_refl_trans_1n _ removes.

Definition render (abs : bool) (l : list segment) : str :=
  (if abs then [slash] else []) ++ flat_map (fun s => text s ++ (if followed s then [slash] else [])) l.

(** the first remaining segment could be read as a scheme and did not come first in the original path *)
Definition looks_like_scheme (l : list segment) : bool :=
  match l with
  | s :: _ => negb (Nat.eqb (place s) 0) && (if in_dec Z.eq_dec colon (text s) then true else false)
  | [] => false
  end.

Definition no_nul (p : str) : Prop := ~ In nul p.

(** [q] is the canonical form of the path [p] *)
Definition canonical (p q : str) : Prop :=
  exists l, reduces (segments p) l /\ reduced l /\
  q = (if negb (absolute p) && looks_like_scheme l then [dot; slash] else []) ++ render (absolute p) l.

(** ** URIs *)
Definition same_components (u v : uri) : Prop :=
  u_scheme u = u_scheme v /\ u_username u = u_username v /\ u_password u = u_password v /\ u_host u = u_host v /\
  u_port u = u_port v /\ u_path u = u_path v /\ u_query u = u_query v /\ u_fragment u = u_fragment v.
Definition same_base (u v : uri) : Prop :=
  u_scheme u = u_scheme v /\ u_username u = u_username v /\ u_password u = u_password v /\ u_host u = u_host v /\ u_port u = u_port v.

(** the cache holds no other URI with the text of these components *)
Definition unambiguous (k : cache) (scheme username password host port path query fragment : str) : Prop :=
  match k (b_text (build scheme username password host port path query fragment)) with
  | Some u => same_components u (mkURI scheme username password host port path query fragment [])
  | None => True
  end.

Definition normal_path (p : str) : Prop := no_nul p /\ normalize p = Some p.

(** the mapping applies to the URI *)
Definition applies (u old : uri) : Prop := same_base u old /\ exists rest, u_path u = u_path old ++ rest.

(** every URI of the cache is registered under its own text *)
Definition own_text (k : cache) : Prop := forall t u, k t = Some u -> u_raw u = t.

(** the text of the URI begins with its scheme *)
Definition named (u : uri) : Prop := u_scheme u <> [] /\ ~ In colon (u_scheme u) /\ exists rest, u_raw u = u_scheme u ++ colon :: rest.

(** [v] is [u] with the prefix [old] replaced by [new]: the authority of [u] is kept *)
Definition replaced (u old new v : uri) : Prop :=
  same_base u old /\ exists rest, u_path u = u_path old ++ rest /\
  same_components v (mkURI (u_scheme new) (u_username u) (u_password u) (u_host u) (u_port u) (u_path new ++ rest) (u_query u) (u_fragment u) []).
Definition maps_to (m : list (uri * uri)) (u v : uri) : Prop := exists old new, In (old, new) m /\ replaced u old new v.

(** the caches do not confuse the URIs which the mappings of [m] can produce *)
Definition clear_caches (ks : nat -> cache) (m : list (uri * uri)) : Prop :=
  forall n, own_text (ks n) /\
  forall old new, In (old, new) m -> forall username password host port path query fragment,
    unambiguous (ks n) (u_scheme new) username password host port path query fragment.
