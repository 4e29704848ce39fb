(** What a copy of a layout or a database has to be. *)
From Verif Require Import Base Copy_Model.

Section CopySpec.
  Context {A : Type}.

  Definition prim_at (p : prim A) : addr := match p with PWire w => w_at w | POther a _ => a end.
  (** The addresses of the objects a layout owns, with its own first *)
  Definition addrs (l : layout A) : list addr :=
    l_at l :: map (fun kc => c_at (snd kc)) (l_comps l) ++ map i_at (l_insts l) ++ map prim_at (l_prims l) ++ map p_at (l_pads l) ++
    map (fun km => m_at (snd km)) (l_mods l).
  Definition defn_addrs (f : defn A) : list addr := f_at f :: match f_body f with BCell l => addrs l | BOther _ => [] end.
  Definition db_addrs (d : db A) : list addr := d_at d :: flat_map (fun kf => defn_addrs (snd kf)) (d_defs d).

  (** The ends of the bond wires of a layout *)
  Definition ends (l : layout A) : list wend :=
    flat_map (fun p => match p with PWire w => [w_start w; w_end w] | POther _ _ => [] end) (l_prims l).

  (** An attached end is attached to a component of the layout *)
  Definition own_ends (l : layout A) : Prop :=
    forall e p, In e (ends l) -> e_comp e = Some p -> exists k c, In (k, c) (l_comps l) /\ c_at c = p.
  (** Every component is stored under its name, once *)
  Definition named (l : layout A) : Prop :=
    NoDup (map fst (l_comps l)) /\ (forall k c, In (k, c) (l_comps l) -> c_name c = k).
  (** The components of the layout are alive *)
  Definition alive_in (heap : list (comp A)) (l : layout A) : Prop :=
    NoDup (map c_at heap) /\ (forall k c, In (k, c) (l_comps l) -> In c heap).

  (** So for every layout of the database *)
  Definition ready (heap : list (comp A)) (d : db A) : Prop :=
    forall l, In l (layouts d) -> named l /\ own_ends l /\ alive_in heap l.

  (** An end of a wire of the copy [l'] of [l]: attached to the component under the same key *)
  Definition end_copied (l l' : layout A) (e e' : wend) : Prop :=
    match e_comp e with
    | None => e' = e
    | Some p => e_pin e' = e_pin e /\ e_lyr e' = OnComponent /\
                exists k c c', In (k, c) (l_comps l) /\ c_at c = p /\ In (k, c') (l_comps l') /\ e_comp e' = Some (c_at c')
    end.
  Definition prim_copied (l l' : layout A) (p p' : prim A) : Prop :=
    match p, p' with
    | PWire w, PWire w' => w_data w' = w_data w /\ end_copied l l' (w_start w) (w_start w') /\ end_copied l l' (w_end w) (w_end w')
    | POther _ d, POther _ d' => d' = d
    | _, _ => False
    end.

  (** [l'] has what [l] has; pointers to other objects and the type of models are left to other properties *)
  Record same_content (l l' : layout A) : Prop := {
    sc_name : l_name l' = l_name l;
    sc_data : l_data l' = l_data l;
    sc_comps : Forall2 (fun kc kc' => fst kc' = fst kc /\ c_name (snd kc') = c_name (snd kc) /\ c_data (snd kc') = c_data (snd kc)) (l_comps l) (l_comps l');
    sc_insts : Forall2 (fun i i' => i_data i' = i_data i) (l_insts l) (l_insts l');
    sc_prims : Forall2 (prim_copied l l') (l_prims l) (l_prims l');
    sc_pads : Forall2 (fun p p' => p_data p' = p_data p) (l_pads l) (l_pads l');
    sc_mods : Forall2 (fun m m' => fst m' = fst m /\ m_data (snd m') = m_data (snd m)) (l_mods l) (l_mods l') }.

  (** All objects are new and different *)
  Definition fresh (n : addr) (l : list addr) : Prop := NoDup l /\ Forall (fun a => n <= a) l.

  (** The objects outside the layout that its objects refer to *)
  Definition opt (o : option addr) : list addr := match o with Some a => [a] | None => [] end.
  Definition references (l : layout A) : list addr :=
    flat_map (fun kc => [c_ref (snd kc); c_def (snd kc)]) (l_comps l) ++
    flat_map (fun i => i_ref i :: i_def i :: opt (i_map i)) (l_insts l) ++
    flat_map (fun p => match p with PWire w => opt (w_joint w) | POther _ _ => [] end) (l_prims l) ++
    flat_map (fun p => opt (p_def p) ++ opt (p_map p)) (l_pads l) ++
    flat_map (fun km => opt (m_lay (snd km))) (l_mods l).

  (** [m] of type [k] is in the collection after these calls *)
  Definition stored (ops : list mop) (k : mkind) : Prop :=
    exists pre m post, ops = pre ++ Add (Some m) :: post /\ m_kind (A := A) m = k /\ ~ In Clear post.
  Definition mods_after (ops : list mop) : list (mkind * mod_ A) := fold_left mod_step ops [].
End CopySpec.
