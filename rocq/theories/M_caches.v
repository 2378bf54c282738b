(** Model of the two process-wide caches of src/pymap3d/ellipsoid.py: the lru_cache
    behind [Ellipsoid.from_name] (192-210) and the dictionary of geodesic solvers
    (218-247), with Python object identity.

    Simplifications: objects are numbered in order of creation and never freed; the
    thread-safety of lru_cache and dict is not modelled; dictionary keys are compared
    as real numbers (NaN keys and the sign of zero are absent). *)
From Verif Require Import PyMath M_ellipsoid M_karney.
Open Scope R_scope.

(** The heap of Ellipsoid and _Geodesic objects, and the caches, which hold object
    numbers: ellipsoid.py:207 (lru_cache, maxsize=None) and 224. *)
Record world := mkWorld {
  objs : list Ellipsoid;
  geos : list Geodesic;
  name_cache : list (string * nat);
  geo_cache : list (R * R * nat)
}.
(** State right after import. *)
Definition world0 : world := mkWorld nil nil nil nil.

Definition alloc_obj (w : world) (e : Ellipsoid) : world * nat :=
  (mkWorld (objs w ++ [e]) (geos w) (name_cache w) (geo_cache w), List.length (objs w)).

(** Dictionary lookups. *)
Fixpoint find_name (l : list (string * nat)) (n : string) : option nat :=
  match l with
  | nil => None
  | (k, p) :: l' => if String.eqb k n then Some p else find_name l' n
  end.
Fixpoint find_key (l : list (R * R * nat)) (a f : R) : option nat :=
  match l with
  | nil => None
  | (a', f', p) :: l' => if Req_EM_T a' a then if Req_EM_T f' f then Some p else find_key l' a f else find_key l' a f
  end.

(** ellipsoid.py:207-210 with functools.lru_cache(maxsize=None): a hit returns the
    stored object, a miss stores the new one, an exception stores nothing. *)
Definition from_name_cached (w : world) (n : string) : world * result nat :=
  match find_name (name_cache w) n with
  | Some p => (w, Ok p)
  | None =>
      match from_name n with
      | Raise e => (w, Raise e)
      | Ok e => let '(w, p) := alloc_obj w e in
                (mkWorld (objs w) (geos w) ((n, p) :: name_cache w) (geo_cache w), Ok p)
      end
  end.

(** ellipsoid.py:213-215, on object numbers. *)
Definition resolve_obj (w : world) (ell : option nat) : world * result nat :=
  match ell with
  | None => from_name_cached w "wgs84"
  | Some p => (w, Ok p)
  end.

(** karney.py:308-332: [_Geodesic.__init__] reads only the semimajor axis and the
    flattening, and divides by (1 - f)^2 and 2 - f. *)
Definition build_geodesic (e : Ellipsoid) : result Geodesic :=
  if Req_EM_T (flattening e) 1 then Raise ZeroDivisionError
  else if Req_EM_T (flattening e) 2 then Raise ZeroDivisionError
  else Ok (geodesic_init (semimajor_axis e) (flattening e)).

(** ellipsoid.py:227-237 with the key of 218-221. *)
Definition get_cached_geodesic (w : world) (ell : option nat) : world * result nat :=
  let '(w, r) := resolve_obj w ell in
  match r with
  | Raise e => (w, Raise e)
  | Ok p =>
      match nth_error (objs w) p with
      | None => (w, Raise AttributeError)
      | Some o =>
          match find_key (geo_cache w) (semimajor_axis o) (flattening o) with
          | Some q => (w, Ok q)
          | None =>
              let '(w, r) := resolve_obj w ell in
              match r with
              | Raise e => (w, Raise e)
              | Ok p =>
                  match nth_error (objs w) p with
                  | None => (w, Raise AttributeError)
                  | Some o' =>
                      match build_geodesic o' with
                      | Raise e => (w, Raise e)
                      | Ok g =>
                          let q := List.length (geos w) in
                          (mkWorld (objs w) (geos w ++ [g]) (name_cache w)
                             ((semimajor_axis o, flattening o, q) :: geo_cache w), Ok q)
                      end
                  end
              end
          end
      end
  end.

(** ellipsoid.py:240-247 *)
Definition clear_ellipsoid_caches (w : world) : world := mkWorld (objs w) (geos w) nil nil.

(** The attributes of the (mutable) dataclass, ellipsoid.py:58-65. *)
Inductive attr := A_semimajor | A_semiminor | A_flattening | A_third | A_ecc.
Definition set_attr (e : Ellipsoid) (a : attr) (v : R) : Ellipsoid :=
  match a with
  | A_semimajor => mkEllipsoid (ell_name e) (ell_model e) v (semiminor_axis e) (flattening e) (thirdflattening e) (eccentricity e)
  | A_semiminor => mkEllipsoid (ell_name e) (ell_model e) (semimajor_axis e) v (flattening e) (thirdflattening e) (eccentricity e)
  | A_flattening => mkEllipsoid (ell_name e) (ell_model e) (semimajor_axis e) (semiminor_axis e) v (thirdflattening e) (eccentricity e)
  | A_third => mkEllipsoid (ell_name e) (ell_model e) (semimajor_axis e) (semiminor_axis e) (flattening e) v (eccentricity e)
  | A_ecc => mkEllipsoid (ell_name e) (ell_model e) (semimajor_axis e) (semiminor_axis e) (flattening e) (thirdflattening e) v
  end.
Fixpoint update_nth {A} (l : list A) (p : nat) (f : A -> A) : list A :=
  match l, p with
  | nil, _ => nil
  | x :: l', O => f x :: l'
  | x :: l', S k => x :: update_nth l' k f
  end.

(** What a program can do with this module. *)
Inductive op :=
| FromName (n : string)                       (* Ellipsoid.from_name(n) *)
| FromNameSubclass (n : string)               (* S.from_name(n), S a subclass: 199-204 *)
| Construct (a b : R) (name model : string) (flat third ecc : option R)
| GetGeodesic (ell : option nat)              (* karney.py:831-832 *)
| ClearCaches
| Assign (p : nat) (a : attr) (v : R).        (* obj.attribute = v *)

(** What it gets back: an Ellipsoid object, a geodesic object, nothing, an exception. *)
Inductive reply := RObj (p : nat) | RGeo (q : nat) | RNone | RExn (e : exn).

(** ellipsoid.py:192-247, one call. *)
Definition step (w : world) (o : op) : world * reply :=
  match o with
  | FromName n => let '(w, r) := from_name_cached w n in (w, match r with Ok p => RObj p | Raise e => RExn e end)
  | FromNameSubclass n =>
      match from_name n with Ok e => let '(w, p) := alloc_obj w e in (w, RObj p) | Raise e => (w, RExn e) end
  | Construct a b name model flat third ecc =>
      match Ellipsoid_init a b name model flat third ecc with
      | Ok e => let '(w, p) := alloc_obj w e in (w, RObj p)
      | Raise e => (w, RExn e)
      end
  | GetGeodesic ell => let '(w, r) := get_cached_geodesic w ell in (w, match r with Ok q => RGeo q | Raise e => RExn e end)
  | ClearCaches => (clear_ellipsoid_caches w, RNone)
  | Assign p a v => (mkWorld (update_nth (objs w) p (fun e => set_attr e a v)) (geos w) (name_cache w) (geo_cache w), RNone)
  end.
(** A whole history. *)
Fixpoint run (w : world) (h : list op) : world :=
  match h with nil => w | o :: h' => run (fst (step w o)) h' end.
