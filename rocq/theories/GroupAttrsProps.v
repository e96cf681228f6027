(** C79: removing attributes of groups that are not inherited changes nothing. *)
From Coq Require Import String List NArith ZArith Bool.
From Verif Require Import Chars NameModel AttrTable ElemTable ElemModel KnownModel GroupAttrsModel GroupAttrsSpec GroupAttrsProofs.
Import ListNotations.

(** Exactly [vector-effect] and [transform-origin] are removed, and only from groups. *)
Theorem C79_exact : forall on e l, Forall (fun a => recognisable (fst a)) l ->
  element on e l = filter (fun a => negb (on && elem_is e (lit "G") && (is_kind (fst a) "VectorEffect" || is_kind (fst a) "TransformOrigin"))) l.
Proof. exact element_exact. Qed.
(** What is missing: the two that are removed. *)
Theorem C79_style_partial : forall inherits initial p on c, sound c -> p <> lit "vector-effect" -> p <> lit "transform-origin" ->
  computed inherits initial p (map (fun n => (fst n, element on (fst n) (snd n))) c) = computed inherits initial p c.
Proof. exact style_kept. Qed.
(** [vector-effect], or any property that is not inherited, of elements other than groups; what is missing: [inherit]. *)
Theorem C79_effect_partial : forall inherits initial p on e l c, inherits p = false -> elem_is e (lit "G") = false -> specified p l <> Some (lit "inherit") ->
  computed inherits initial p (map (fun n => (fst n, element on (fst n) (snd n))) ((e, l) :: c)) = computed inherits initial p ((e, l) :: c).
Proof. exact effect_kept. Qed.
Print Assumptions C79_exact.
Print Assumptions C79_style_partial.
Print Assumptions C79_effect_partial.

(** Names as the program resolves them. *)
Definition known_attr (s : string) : attr_id := match find (fun k => text_eqb (kind_local k) (lit s)) attr_table with Some k => ABase (BKnown k) | None => ABase (BUnknown (mkName (PKnown SVG) (lit s))) end.
Definition group : elem_id := match find (fun k => text_eqb (e_id k) (lit "G")) elem_table with Some k => EKnown k | None => EUnknown (PKnown SVG) [] end.
Definition rect : elem_id := match find (fun k => text_eqb (e_id k) (lit "Rect")) elem_table with Some k => EKnown k | None => EUnknown (PKnown SVG) [] end.

(** A group that is rotated about a point is rotated about another one: its attribute is gone, and the corner of what it has goes elsewhere. *)
Theorem C79_origin_refuted : exists l v,
  specified (lit "transform-origin") l = Some v /\ specified (lit "transform") l = Some (lit "rotate(90)") /\ v = lit "50 50" /\
  specified (lit "transform-origin") (element true group l) = None /\ specified (lit "transform") (element true group l) = Some (lit "rotate(90)") /\
  place (50, 50)%Z (0, 1, -1, 0, 0, 0)%Z (0, 0)%Z <> place (0, 0)%Z (0, 1, -1, 0, 0, 0)%Z (0, 0)%Z.
Proof.
  exists [(known_attr "transform", lit "rotate(90)"); (known_attr "transform-origin", lit "50 50")], (lit "50 50").
  vm_compute. repeat split. discriminate.
Qed.
(** A shape takes the effect of its group. *)
Theorem C79_inherit_refuted : exists c inherits initial, inherits (lit "vector-effect") = false /\
  computed inherits initial (lit "vector-effect") (map (fun n => (fst n, element true (fst n) (snd n))) c) <> computed inherits initial (lit "vector-effect") c.
Proof.
  exists [(rect, [(known_attr "vector-effect", lit "inherit")]); (group, [(known_attr "vector-effect", lit "non-scaling-stroke")])], (fun _ => false), (fun _ => lit "none").
  vm_compute. split; [reflexivity|discriminate].
Qed.
(** What the job is for stays. *)
Theorem C79_useless_refuted : Forall (fun s => id_local (known_attr s) = lit s /\ is_kind (known_attr s) "Unknown" = false /\
  element true group [(known_attr s, lit "inherit")] = [(known_attr s, lit "inherit")]) useless.
Proof. repeat (constructor; [vm_compute; repeat split|]). constructor. Qed.

Example C79_sound : sound [(group, [(known_attr "vector-effect", lit "none"); (known_attr "fill", lit "red")])].
Proof.
  constructor; [|constructor]. constructor; [|constructor; [|constructor]]; unfold recognisable; cbn [fst].
  - unfold known_attr. destruct (find _ attr_table) eqn:F; [apply find_some in F; exact (proj1 F)|exact I].
  - unfold known_attr. destruct (find _ attr_table) eqn:F; [apply find_some in F; exact (proj1 F)|exact I].
Qed.
Example C79_example : map (fun a => id_local (fst a)) (element true group [(known_attr "vector-effect", lit "none"); (known_attr "fill", lit "red"); (known_attr "opacity", lit ".5")]) = [lit "fill"; lit "opacity"].
Proof. vm_compute. reflexivity. Qed.
Example C79_other : element true rect [(known_attr "vector-effect", lit "none")] = [(known_attr "vector-effect", lit "none")].
Proof. vm_compute. reflexivity. Qed.
Example C79_off : element false group [(known_attr "vector-effect", lit "none")] = [(known_attr "vector-effect", lit "none")].
Proof. vm_compute. reflexivity. Qed.
