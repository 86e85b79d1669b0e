(** What paths mean, and what names are ordinary. *)
From Verif Require Import Base Types Ids_model Ids_spec Paths_model.

(** A path names: absolute or not, and the list of its components; empty components and "." do not count
    (".." is kept as a component; symbolic links are not considered). *)
Definition meaningful (s : string) : bool := negb (eqb s "") && negb (eqb s ".").
Definition components (p : string) : bool * list string := (path_is_absolute p, filter meaningful (split "/"%char p)).

(** An ordinary file name. *)
Definition ordinary (s : string) : Prop := s <> "" /\ s <> "." /\ s <> ".." /\ slash_free s.
Definition ordinary_repo (r : option (string * string)) : Prop := match r with Some (o, n) => ordinary o /\ ordinary n | None => True end.
Definition ordinary_id (id : step_id) : Prop := ordinary (sid_0 id) /\ ordinary (sid_1 id).

(** [p] lies in (or is) the directory [d]: it continues [d] with ordinary names only. *)
Definition within (d p : string) : Prop :=
  exists rest, components p = (fst (components d), snd (components d) ++ rest) /\ Forall ordinary rest.
Definition same_place (p q : string) : Prop := components p = components q.
