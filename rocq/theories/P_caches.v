(** Property C51: the ellipsoid and geodesic caches, over every history of calls. *)
From Coq Require Import Lia.
From Verif Require Import PyMath M_ellipsoid M_karney M_caches.
From Verif Require L_ell L_utils.
Open Scope R_scope.

(** ** Specification *)
Definition is_assign (o : op) : Prop := match o with Assign _ _ _ => True | _ => False end.
Definition is_clear (o : op) : Prop := match o with ClearCaches => True | _ => False end.
(** Histories in which the program never assigns to an attribute of an Ellipsoid. *)
Definition no_assign (h : list op) : Prop := Forall (fun o => ~ is_assign o) h.
Definition no_clear (h : list op) : Prop := Forall (fun o => ~ is_clear o) h.
(** The content of the object a reply refers to: the value the program sees. *)
Inductive seen := SEll (e : Ellipsoid) | SGeo (g : Geodesic) | SNone | SExn (e : exn) | SBad.
Definition look (w : world) (r : reply) : seen :=
  match r with
  | RObj p => match nth_error (objs w) p with Some e => SEll e | None => SBad end
  | RGeo q => match nth_error (geos w) q with Some g => SGeo g | None => SBad end
  | RNone => SNone
  | RExn e => SExn e
  end.
Definition observe (w : world) (o : op) : seen := let '(w', r) := step w o in look w' r.
(** What the call computes when nothing is ever cached, given the contents of the
    objects it is handed. *)
Definition uncached (content : nat -> option Ellipsoid) (o : op) : seen :=
  let ell_seen r := match r with Ok e => SEll e | Raise e => SExn e end in
  match o with
  | FromName n => ell_seen (from_name n)
  | FromNameSubclass n => ell_seen (from_name n)
  | Construct a b name model flat third ecc => ell_seen (Ellipsoid_init a b name model flat third ecc)
  | GetGeodesic ell =>
      match (match ell with None => from_name "wgs84" | Some p => match content p with Some e => Ok e | None => Raise AttributeError end end) with
      | Ok e => match build_geodesic e with Ok g => SGeo g | Raise e => SExn e end
      | Raise e => SExn e
      end
  | ClearCaches => SNone
  | Assign _ _ _ => SNone
  end.

(** ** Invariants *)
(** Geodesic cache entries hold what their key says. *)
Definition geo_inv (w : world) : Prop :=
  forall a f q, find_key (geo_cache w) a f = Some q -> nth_error (geos w) q = Some (geodesic_init a f) /\ f <> 1 /\ f <> 2.
(** Name cache entries hold the table values. *)
Definition name_inv (w : world) : Prop :=
  forall n p, find_name (name_cache w) n = Some p -> exists e, from_name n = Ok e /\ nth_error (objs w) p = Some e.
(** Name cache entries refer to live objects. *)
Definition live_inv (w : world) : Prop := forall n p, find_name (name_cache w) n = Some p -> (p < List.length (objs w))%nat.

Lemma nth_app_old {A} (l : list A) x p y : nth_error l p = Some y -> nth_error (l ++ [x]) p = Some y.
Proof. intros H. rewrite nth_error_app1; [exact H|]. apply nth_error_Some. now rewrite H. Qed.
Lemma nth_app_new {A} (l : list A) x : nth_error (l ++ [x]) (List.length l) = Some x.
Proof. rewrite nth_error_app2, Nat.sub_diag; [reflexivity|lia]. Qed.
Lemma update_length {A} (l : list A) p f : List.length (update_nth l p f) = List.length l.
Proof. revert p. induction l as [|x l IH]; intros [|p]; cbn; try reflexivity. now rewrite IH. Qed.
Lemma update_nth_other {A} (l : list A) p f q : p <> q -> nth_error (update_nth l p f) q = nth_error l q.
Proof. revert p q. induction l as [|x l IH]; intros [|p] [|q] H; cbn; try reflexivity; try contradiction. apply IH. congruence. Qed.
Lemma update_nth_same {A} (l : list A) p f : nth_error (update_nth l p f) p = option_map f (nth_error l p).
Proof. revert p. induction l as [|x l IH]; intros [|p]; cbn; try reflexivity. apply IH. Qed.

(** One call of from_name. *)
Lemma fn_cases w n : let '(w', r) := from_name_cached w n in
  (exists p, find_name (name_cache w) n = Some p /\ w' = w /\ r = Ok p) \/
  (find_name (name_cache w) n = None /\ exists e, from_name n = Raise e /\ w' = w /\ r = Raise e) \/
  (find_name (name_cache w) n = None /\ exists e, from_name n = Ok e /\ r = Ok (List.length (objs w)) /\
     w' = mkWorld (objs w ++ [e]) (geos w) ((n, List.length (objs w)) :: name_cache w) (geo_cache w)).
Proof.
  unfold from_name_cached, alloc_obj. destruct (find_name (name_cache w) n) as [p|]; [left; now exists p|]. destruct (from_name n) as [e|e]; right; [right|left]; (split; [reflexivity|]); exists e; repeat split; reflexivity.
Qed.
(** One call of get_cached_geodesic, after its first resolution. *)
Lemma gg_cases w ell : let '(w', r) := get_cached_geodesic w ell in
  (exists e, resolve_obj w ell = (w', Raise e) /\ r = Raise e) \/
  (exists w1 p, resolve_obj w ell = (w1, Ok p) /\
    ((nth_error (objs w1) p = None /\ w' = w1 /\ r = Raise AttributeError) \/
     (exists o, nth_error (objs w1) p = Some o /\
      ((exists q, find_key (geo_cache w1) (semimajor_axis o) (flattening o) = Some q /\ w' = w1 /\ r = Ok q) \/
       (find_key (geo_cache w1) (semimajor_axis o) (flattening o) = None /\
        ((exists e, build_geodesic o = Raise e /\ w' = w1 /\ r = Raise e) \/
         (exists g, build_geodesic o = Ok g /\ r = Ok (List.length (geos w1)) /\
            w' = mkWorld (objs w1) (geos w1 ++ [g]) (name_cache w1) ((semimajor_axis o, flattening o, List.length (geos w1)) :: geo_cache w1)))))))).
Proof.
  unfold get_cached_geodesic. destruct (resolve_obj w ell) as [w1 [p|e]] eqn:E1; [|left; now exists e]. 
  assert (E2 : resolve_obj w1 ell = (w1, Ok p)).
  { destruct ell as [p'|]; cbn in E1 |- *; [now injection E1 as <- ->|]. pose proof (fn_cases w "wgs84") as C. rewrite E1 in C.
    destruct C as [(p' & F & -> & Hp)|[(F & e & _ & _ & Hp)|(F & e & _ & Hp & ->)]]; try discriminate; injection Hp as ->; unfold from_name_cached; cbn [name_cache find_name].
    - now rewrite F.
    - reflexivity. }
  destruct (nth_error (objs w1) p) as [o|] eqn:Eo.
  2: { right. exists w1, p. split; [reflexivity|]. left. now rewrite Eo. }
  destruct (find_key _ _ _) as [q|] eqn:Ek.
  { right. exists w1, p. split; [reflexivity|]. right. exists o. split; [exact Eo|]. left. now exists q. }
  rewrite E2, Eo. destruct (build_geodesic o) as [g|e] eqn:Eb; right; exists w1, p; (split; [reflexivity|]); right; exists o; (split; [exact Eo|]); right; (split; [exact Ek|]).
  - right. now exists g. - left. now exists e.
Qed.
Lemma geo_inv_cons w g a f : geo_inv w -> g = geodesic_init a f -> f <> 1 -> f <> 2 ->
  geo_inv (mkWorld (objs w) (geos w ++ [g]) (name_cache w) ((a, f, List.length (geos w)) :: geo_cache w)).
Proof.
  intros H -> N1 N2 a' f' q. cbn [geo_cache geos find_key].
  destruct (Req_EM_T a a') as [->|_]; [destruct (Req_EM_T f f') as [->|_]|]; intros E.
  - injection E as <-. rewrite nth_app_new. tauto.
  - destruct (H _ _ _ E) as (A & B). split; [now apply nth_app_old|exact B].
  - destruct (H _ _ _ E) as (A & B). split; [now apply nth_app_old|exact B].
Qed.
Lemma build_ok e g : build_geodesic e = Ok g -> g = geodesic_init (semimajor_axis e) (flattening e) /\ flattening e <> 1 /\ flattening e <> 2.
Proof. unfold build_geodesic. destruct (Req_EM_T _ 1); [discriminate|]. destruct (Req_EM_T _ 2); [discriminate|]. intros E. injection E as <-. tauto. Qed.
Lemma resolve_geos w ell : geos (fst (resolve_obj w ell)) = geos w /\ geo_cache (fst (resolve_obj w ell)) = geo_cache w.
Proof.
  destruct ell as [p|]; [split; reflexivity|]. cbn. pose proof (fn_cases w "wgs84") as C. destruct (from_name_cached w "wgs84") as [w' r].
  destruct C as [(p' & F & -> & Hp)|[(F & e & _ & -> & Hp)|(F & e & _ & Hp & ->)]]; split; reflexivity.
Qed.
Lemma geo_inv_same w w' : geos w' = geos w -> geo_cache w' = geo_cache w -> geo_inv w -> geo_inv w'.
Proof. intros A B H a f q. rewrite A, B. apply H. Qed.
Lemma step_geo_inv w o : geo_inv w -> geo_inv (fst (step w o)).
Proof.
  intros H. destruct o as [n|n|a b name model flat third ecc|ell| |p a v]; cbn [step].
  - pose proof (resolve_geos w None) as Q. pose proof (fn_cases w n) as C. destruct (from_name_cached w n) as [w' r]. cbn [fst].
    destruct C as [(p' & F & -> & Hp)|[(F & e & _ & -> & Hp)|(F & e & _ & Hp & ->)]]; assumption.
  - destruct (from_name n) as [e|e]; exact H.
  - destruct (Ellipsoid_init _ _ _ _ _ _ _) as [e|e]; exact H.
  - pose proof (gg_cases w ell) as C. pose proof (resolve_geos w ell) as Q. destruct (get_cached_geodesic w ell) as [w' r]. cbn [fst].
    destruct C as [(e & E & _)|(w1 & p & E & C)]; rewrite E in Q; cbn [fst] in Q; destruct Q as [Q1 Q2]; [now apply (geo_inv_same w)|].
    assert (H1 : geo_inv w1) by now apply (geo_inv_same w).
    destruct C as [(_ & -> & _)|(o & Eo & [(q & _ & -> & _)|(_ & [(e & _ & -> & _)|(g & B & _ & ->)])])]; try exact H1.
    destruct (build_ok _ _ B) as (-> & N1 & N2). now apply geo_inv_cons.
  - intros a f q E. discriminate.
  - exact H.
Qed.
Lemma run_geo_inv h : forall w, geo_inv w -> geo_inv (run w h).
Proof. induction h as [|o h IH]; intros w H; [exact H|]. cbn. apply IH, step_geo_inv, H. Qed.
Lemma world0_geo : geo_inv world0.
Proof. intros a f q E. discriminate. Qed.
Lemma find_name_cons n p l m : find_name ((n, p) :: l) m = if String.eqb n m then Some p else find_name l m.
Proof. reflexivity. Qed.
Lemma resolve_name_inv w ell : name_inv w -> name_inv (fst (resolve_obj w ell)).
Proof.
  intros H. destruct ell as [p|]; [exact H|]. cbn. pose proof (fn_cases w "wgs84") as C. destruct (from_name_cached w "wgs84") as [w' r].
  destruct C as [(p' & F & -> & Hp)|[(F & e & _ & -> & Hp)|(F & e & Fe & Hp & ->)]]; try exact H.
  intros n p. cbn [fst name_cache objs]. rewrite find_name_cons. destruct (String.eqb_spec "wgs84" n) as [<-|_]; intros E.
  - injection E as <-. exists e. split; [exact Fe|apply nth_app_new].
  - destruct (H _ _ E) as (e' & A & B). exists e'. split; [exact A|now apply nth_app_old].
Qed.
Lemma step_name_inv w o : ~ is_assign o -> name_inv w -> name_inv (fst (step w o)).
Proof.
  intros NA H. destruct o as [n|n|a b name model flat third ecc|ell| |p a v]; cbn [step].
  - pose proof (fn_cases w n) as C. destruct (from_name_cached w n) as [w' r]. cbn [fst].
    destruct C as [(p' & F & -> & Hp)|[(F & e & _ & -> & Hp)|(F & e & Fe & Hp & ->)]]; try exact H.
    intros m p. cbn [fst name_cache objs]. rewrite find_name_cons. destruct (String.eqb_spec n m) as [<-|_]; intros E.
    + injection E as <-. exists e. split; [exact Fe|apply nth_app_new].
    + destruct (H _ _ E) as (e' & A & B). exists e'. split; [exact A|now apply nth_app_old].
  - destruct (from_name n) as [e|e]; [|exact H]. intros m p E. destruct (H _ _ E) as (e' & A & B). exists e'. split; [exact A|now apply nth_app_old].
  - destruct (Ellipsoid_init _ _ _ _ _ _ _) as [e|e]; [|exact H]. intros m p E. destruct (H _ _ E) as (e' & A & B). exists e'. split; [exact A|now apply nth_app_old].
  - pose proof (gg_cases w ell) as C. pose proof (resolve_name_inv w ell H) as Q. destruct (get_cached_geodesic w ell) as [w' r]. cbn [fst].
    destruct C as [(e & E & _)|(w1 & p & E & C)]; rewrite E in Q; cbn [fst] in Q; [exact Q|].
    destruct C as [(_ & -> & _)|(o & Eo & [(q & _ & -> & _)|(_ & [(e & _ & -> & _)|(g & B & _ & ->)])])]; exact Q.
  - intros m p E. discriminate.
  - destruct (NA I).
Qed.
Lemma run_name_inv h : forall w, no_assign h -> name_inv w -> name_inv (run w h).
Proof.
  induction h as [|o h IH]; intros w N H; [exact H|]. inversion N; subst. cbn. apply IH; [assumption|]. now apply step_name_inv.
Qed.
Lemma world0_name : name_inv world0.
Proof. intros a f q. discriminate. Qed.
Lemma resolve_content w p e : nth_error (objs w) p = Some e -> resolve_obj w (Some p) = (w, Ok p).
Proof. reflexivity. Qed.

(** ** C51 *)
(** Whatever was called before, every call answers what it answers without caches. *)
Theorem C51_caches_transparent : forall h o, no_assign h ->
  observe (run world0 h) o = uncached (fun p => nth_error (objs (run world0 h)) p) o.
Proof.
  intros h o N. pose proof (run_name_inv h world0 N world0_name) as NI. pose proof (run_geo_inv h world0 world0_geo) as GI.
  set (w := run world0 h) in *. unfold observe. destruct o as [n|n|a b name model flat third ecc|ell| |p a v]; cbn [step uncached look].
  - pose proof (fn_cases w n) as C. destruct (from_name_cached w n) as [w' r].
    destruct C as [(p' & F & -> & ->)|[(F & e & Fe & -> & ->)|(F & e & Fe & -> & ->)]]; cbn [look objs].
    + destruct (NI _ _ F) as (e & A & B). now rewrite A, B.
    + now rewrite Fe.
    + now rewrite Fe, nth_app_new.
  - destruct (from_name n) as [e|e]; cbn; [now rewrite nth_app_new|reflexivity].
  - destruct (Ellipsoid_init _ _ _ _ _ _ _) as [e|e]; cbn; [now rewrite nth_app_new|reflexivity].
  - pose proof (gg_cases w ell) as C. destruct (get_cached_geodesic w ell) as [w' r].
    destruct C as [(e & E & ->)|(w1 & p & E & C)].
    + destruct ell as [p|]; [discriminate|]. cbn in E. pose proof (fn_cases w "wgs84") as C. rewrite E in C.
      destruct C as [(p' & F & _ & X)|[(F & e' & Fe & _ & X)|(F & e' & Fe & X & _)]]; try discriminate. injection X as ->. cbn [look]. now rewrite Fe.
    + assert (V : exists o, nth_error (objs w1) p = Some o /\ (match ell with None => from_name "wgs84" | Some p => match nth_error (objs w) p with Some e => Ok e | None => Raise AttributeError end end) = Ok o
                 \/ nth_error (objs w1) p = None /\ (match ell with None => from_name "wgs84" | Some p => match nth_error (objs w) p with Some e => Ok e | None => Raise AttributeError end end) = Raise AttributeError).
      { destruct ell as [p'|]; cbn in E.
        - injection E as <- ->. destruct (nth_error (objs w) p) as [o|]; [exists o; left; split; reflexivity|exists (wgs84); right; split; reflexivity].
        - pose proof (fn_cases w "wgs84") as D. rewrite E in D.
          destruct D as [(p' & F & -> & X)|[(F & e' & Fe & _ & X)|(F & e' & Fe & X & ->)]]; try discriminate; injection X as ->.
          + destruct (NI _ _ F) as (e & A & B). exists e. left. split; assumption.
          + exists e'. left. cbn. split; [apply nth_app_new|assumption]. }
      assert (G1 : geo_inv w1). { pose proof (resolve_geos w ell) as Q. rewrite E in Q. cbn [fst] in Q. destruct Q. now apply (geo_inv_same w). }
      destruct V as [o [[V1 V2]|[V1 V2]]]; rewrite V2.
      2: { destruct C as [(_ & -> & ->)|(o' & Eo & _)]; [reflexivity|congruence]. }
      destruct C as [(X & _)|(o' & Eo & C)]; [congruence|]. replace o' with o in * by congruence. clear o' Eo.
      destruct C as [(q & K & -> & ->)|(_ & [(e & B & -> & ->)|(g & B & -> & ->)])]; cbn [look geos].
      * destruct (G1 _ _ _ K) as (A & N1 & N2). rewrite A. unfold build_geodesic. destruct (Req_EM_T _ 1); [contradiction|]. destruct (Req_EM_T _ 2); [contradiction|]. reflexivity.
      * now rewrite B.
      * now rewrite B, nth_app_new.
  - reflexivity.
  - reflexivity.
Qed.
(** The geodesic cache is transparent even for programs that assign to attributes: a
    lookup answers for the present content of the object. *)
Theorem C51_geodesic_sees_current_object : forall h p e, nth_error (objs (run world0 h)) p = Some e ->
  observe (run world0 h) (GetGeodesic (Some p)) = match build_geodesic e with Ok g => SGeo g | Raise x => SExn x end.
Proof.
  intros h p e He. pose proof (run_geo_inv h world0 world0_geo) as GI. set (w := run world0 h) in *. unfold observe. cbn [step].
  pose proof (gg_cases w (Some p)) as C. destruct (get_cached_geodesic w (Some p)) as [w' r].
  destruct C as [(x & E & _)|(w1 & p' & E & C)]; [discriminate|]. cbn in E. injection E as <- <-.
  destruct C as [(X & _)|(o' & Eo & C)]; [congruence|]. replace o' with e in * by congruence.
  destruct C as [(q & K & -> & ->)|(_ & [(x & B & -> & ->)|(g & B & -> & ->)])]; cbn [look geos].
  - destruct (GI _ _ _ K) as (A & N1 & N2). rewrite A. unfold build_geodesic. destruct (Req_EM_T _ 1); [contradiction|]. destruct (Req_EM_T _ 2); [contradiction|]. reflexivity.
  - now rewrite B.
  - now rewrite B, nth_app_new.
Qed.
(** On the ellipsoids of the other properties the lookup is the solver used there. *)
Theorem C51_geodesic_is_the_solver : forall h p e, nth_error (objs (run world0 h)) p = Some e -> flattening e < 1 ->
  observe (run world0 h) (GetGeodesic (Some p)) = SGeo (get_geodesic (Some e)).
Proof.
  intros h p e He F. rewrite (C51_geodesic_sees_current_object h p e He). unfold build_geodesic.
  destruct (Req_EM_T _ 1); [lra|]. destruct (Req_EM_T _ 2); [lra|]. reflexivity.
Qed.
(** No call other than an assignment changes an existing object. *)
Theorem C51_objects_are_stable : forall h h' p e, no_assign h' -> nth_error (objs (run world0 h)) p = Some e ->
  nth_error (objs (run world0 (h ++ h'))) p = Some e.
Proof.
  intros h h' p e N. assert (R : forall a b w, run w (a ++ b) = run (run w a) b) by (induction a; intros; cbn; auto). rewrite R. clear R. generalize (run world0 h). clear h.
  induction h' as [|o h' IH]; intros w H; [exact H|]. inversion N as [|x y NA N']; subst. cbn. apply (IH N'). clear IH N N'.
  destruct o as [n|n|a b name model flat third ecc|ell| |q a v]; cbn [step].
  - pose proof (fn_cases w n) as C. destruct (from_name_cached w n) as [w' r].
    destruct C as [(p' & F & -> & Hp)|[(F & x & _ & -> & Hp)|(F & x & Fe & Hp & ->)]]; try exact H. cbn. now apply nth_app_old.
  - destruct (from_name n) as [x|x]; [|exact H]. cbn. now apply nth_app_old.
  - destruct (Ellipsoid_init _ _ _ _ _ _ _) as [x|x]; [|exact H]. cbn. now apply nth_app_old.
  - pose proof (gg_cases w ell) as C. destruct (get_cached_geodesic w ell) as [w' r]. cbn [fst].
    assert (Q : forall w1 r1, resolve_obj w ell = (w1, r1) -> nth_error (objs w1) p = Some e).
    { intros w1 r1 E. destruct ell as [p'|]; cbn in E; [now injection E as <- _|]. pose proof (fn_cases w "wgs84") as D. rewrite E in D.
      destruct D as [(p' & F & -> & _)|[(F & x & _ & -> & _)|(F & x & Fe & _ & ->)]]; try exact H. cbn. now apply nth_app_old. }
    destruct C as [(x & E & _)|(w1 & p' & E & C)]; [now apply (Q _ _ E)|]. specialize (Q _ _ E).
    destruct C as [(_ & -> & _)|(o & Eo & [(q & _ & -> & _)|(_ & [(x & _ & -> & _)|(g & B & _ & ->)])])]; exact Q.
  - exact H.
  - destruct (NA I).
Qed.
Lemma find_name_kept n p h : no_clear h -> forall w, find_name (name_cache w) n = Some p -> find_name (name_cache (run w h)) n = Some p.
Proof.
  intros N. assert (FN : forall w m w' r, from_name_cached w m = (w', r) -> find_name (name_cache w) n = Some p -> find_name (name_cache w') n = Some p).
  { intros w m w' r E H. pose proof (fn_cases w m) as D. rewrite E in D.
    destruct D as [(p' & F & -> & _)|[(F & x & _ & -> & _)|(F & x & Fe & _ & ->)]]; try exact H. cbn. destruct (String.eqb_spec m n) as [->|_]; [congruence|exact H]. }
  induction h as [|o h IH]; intros w H; [exact H|]. inversion N as [|x y NA N']; subst. cbn. apply (IH N'). clear IH N N'.
  destruct o as [m|m|a b name model flat third ecc|ell| |q a v]; cbn [step].
  - destruct (from_name_cached w m) as [w' r] eqn:E. cbn. now apply (FN w m w' r).
  - destruct (from_name m); exact H.
  - destruct (Ellipsoid_init _ _ _ _ _ _ _); exact H.
  - pose proof (gg_cases w ell) as C. destruct (get_cached_geodesic w ell) as [w' r]. cbn [fst].
    assert (Q : forall w1 r1, resolve_obj w ell = (w1, r1) -> find_name (name_cache w1) n = Some p).
    { intros w1 r1 E. destruct ell as [p'|]; cbn in E; [now injection E as <- _|]. now apply (FN _ _ _ _ E). }
    destruct C as [(x & E & _)|(w1 & p' & E & C)]; [now apply (Q _ _ E)|]. specialize (Q _ _ E).
    destruct C as [(_ & -> & _)|(o & Eo & [(q & _ & -> & _)|(_ & [(x & _ & -> & _)|(g & B & _ & ->)])])]; exact Q.
  - destruct (NA I).
  - exact H.
Qed.
(** from_name hands out one object per name until the caches are cleared. *)
Theorem C51_from_name_singleton : forall h n w1 p h', step (run world0 h) (FromName n) = (w1, RObj p) -> no_clear h' ->
  step (run w1 h') (FromName n) = (run w1 h', RObj p).
Proof.
  intros h n w1 p h' E N. assert (F : find_name (name_cache w1) n = Some p).
  { cbn [step] in E. pose proof (fn_cases (run world0 h) n) as D. destruct (from_name_cached (run world0 h) n) as [w' r].
    destruct D as [(p' & F & -> & ->)|[(F & x & _ & -> & ->)|(F & x & Fe & -> & ->)]]; injection E as <- ?; subst; try discriminate; [exact F|]. cbn. now rewrite String.eqb_refl. }
  pose proof (find_name_kept n p h' N w1 F) as K. cbn [step]. unfold from_name_cached. now rewrite K.
Qed.
(** After clear_ellipsoid_caches, from_name gives a new object with the table's values,
    even if earlier objects have been modified. *)
Theorem C51_clear_gives_fresh_values : forall h n e, from_name n = Ok e ->
  exists w p, step (run world0 (h ++ [ClearCaches])) (FromName n) = (w, RObj p) /\ nth_error (objs w) p = Some e /\
    nth_error (objs (run world0 h)) p = None.
Proof.
  intros h n e He. assert (R : forall a b w, run w (a ++ b) = run (run w a) b) by (induction a; intros; cbn; auto). rewrite R. cbn [run step fst].
  set (w := run world0 h). unfold from_name_cached. cbn [clear_ellipsoid_caches name_cache find_name objs geos geo_cache]. rewrite He. cbn [alloc_obj objs geos name_cache geo_cache].
  eexists _, _. split; [reflexivity|]. cbn [objs]. split; [apply nth_app_new|]. apply nth_error_None. apply le_n.
Qed.
(** Two ellipsoids with the same semimajor axis and flattening share one solver object. *)
Theorem C51_equal_shapes_share_solver : forall h p p' e e' w1 q, nth_error (objs (run world0 h)) p = Some e -> nth_error (objs (run world0 h)) p' = Some e' ->
  semimajor_axis e = semimajor_axis e' -> flattening e = flattening e' ->
  step (run world0 h) (GetGeodesic (Some p)) = (w1, RGeo q) -> step w1 (GetGeodesic (Some p')) = (w1, RGeo q).
Proof.
  intros h p p' e e' w1 q He He' Ea Ef S. set (w := run world0 h) in *. cbn [step] in *. 
  pose proof (gg_cases w (Some p)) as C. destruct (get_cached_geodesic w (Some p)) as [w' r].
  destruct C as [(x & E & _)|(w2 & p2 & E & C)]; [discriminate|]. cbn in E. injection E as <- <-.
  assert (K : find_key (geo_cache w1) (semimajor_axis e') (flattening e') = Some q /\ nth_error (objs w1) p' = Some e').
  { rewrite <- Ea, <- Ef. destruct C as [(X & _)|(o' & Eo & C)]; [congruence|]. replace o' with e in * by congruence.
    destruct C as [(q' & K & -> & ->)|(_ & [(x & B & -> & ->)|(g & B & -> & ->)])]; injection S as <- ?; subst; try discriminate; [split; assumption|].
    cbn. destruct (Req_EM_T _ _); [|contradiction]. destruct (Req_EM_T _ _); [|contradiction]. split; [reflexivity|exact He']. }
  destruct K as [K1 K2]. unfold get_cached_geodesic. cbn [resolve_obj]. now rewrite K2, K1.
Qed.
(** Finding.  The object behind every default argument is shared and mutable: a program
    that changes the radius of the ellipsoid it got from from_name("wgs84") changes what
    from_name and every call with ell=None use afterwards. *)
Theorem C51_assignment_leaks_refuted : exists h o, observe (run world0 h) o <> uncached (fun p => nth_error (objs (run world0 h)) p) o /\
  h = [FromName "wgs84"; Assign 0 A_semimajor 1] /\ o = FromName "wgs84".
Proof.
  exists [FromName "wgs84"; Assign 0 A_semimajor 1], (FromName "wgs84"). split; [|split; reflexivity].
  pose proof L_utils.wgs84_from_name as E.
  assert (S1 : step world0 (FromName "wgs84") = (mkWorld [wgs84] nil [("wgs84"%string, 0%nat)] nil, RObj 0)).
  { unfold step, from_name_cached. cbn [world0 name_cache find_name]. rewrite E. reflexivity. }
  unfold uncached. rewrite E. unfold observe. cbn [run]. rewrite S1. cbn [fst step]. unfold from_name_cached. cbn [name_cache find_name].
  change (String.eqb "wgs84" "wgs84") with true. cbn [look objs update_nth nth_error]. intros X. injection X as X. lra.
Qed.
(** Without assignments the default object is WGS84. *)
Theorem C51_default_is_wgs84 : forall h, no_assign h -> observe (run world0 h) (FromName "wgs84") = SEll wgs84 /\ observe (run world0 h) (GetGeodesic None) = SGeo (get_geodesic None).
Proof.
  intros h N. rewrite !(C51_caches_transparent h _ N). cbn [uncached]. rewrite L_utils.wgs84_from_name. split; [reflexivity|].
  pose proof L_ell.wgs84_valid as V. unfold build_geodesic, get_geodesic, resolve_ellipsoid.
  assert (F : flattening wgs84 < 1) by (unfold wgs84; cbn [flattening]; lra). destruct (Req_EM_T _ 1); [lra|]. destruct (Req_EM_T _ 2); [lra|]. reflexivity.
Qed.
Example C51_example : no_assign [FromName "mars"; GetGeodesic None; ClearCaches; GetGeodesic (Some 0%nat); Construct 2 1 "x" "y" None None None].
Proof. repeat constructor; intros []. Qed.
