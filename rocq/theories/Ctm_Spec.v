(** Which chip thermal model headers survive being written and read, and what comes back. *)
From Verif Require Import Base Ctm_Model.
Local Open Scope Z_scope.

Definition blank (c : Z) : Prop := c = 32 \/ 9 <= c <= 13.
(** A name as it can appear in a header line. *)
Definition word (w : text) : Prop := w <> [] /\ Forall (fun c => 0 <= c < 256 /\ ~ blank c) w.

(** A number that fits the 21 columns of a block entry. *)
Definition fits (z : Z) : Prop := (List.length (fmt z) <= 20)%nat.

(** A number the header may carry where it would be enciphered: the reader replaces negative ones. *)
Definition cipherable (enc : bool) (z : Z) : Prop := enc = true -> 0 <= z.

Record writable (h : hdr) : Prop := mkwritable {
  (* the first line is taken for the version line, and does not claim to be encrypted by itself *)
  w_head : exists r, head h = bytes "#Version" ++ r /\ ~ In 10 r;
  w_head_enc : encrypted h = false -> contains_ci (bytes "Encrypted") (head h ++ [32]) = false;
  w_layers : Forall (fun l => word (l_name l) /\ cipherable (encrypted h) (l_thick l) /\
                              (encrypted h = true -> (List.length (l_name l) <= 61)%nat)) (layers h);
  w_layers_n : Z.of_nat (List.length (layers h)) < 2 ^ 62;
  w_temps : (5 <= List.length (temps h))%nat;
  w_tiles : 0 <= fst (tiles h) <= 100000 /\ 0 <= snd (tiles h) <= 100000;
  w_tech : Forall word (tech h);
  w_tech_n : Z.of_nat (List.length (tech h)) < 2 ^ 62;
  w_metals : Forall (fun m => word (m_name m) /\ hd 0 (m_name m) <> 125 /\ (List.length (m_name m) <= 20)%nat /\
                              fits (m_thick m) /\ fits (m_elev m) /\
                              cipherable (encrypted h) (m_thick m) /\ cipherable (encrypted h) (m_elev m)) (metals h);
  w_vias : Forall (fun v => word (v_name v) /\ hd 0 (v_name v) <> 125 /\ (List.length (v_name v) <= 20)%nat /\
                            (v_bot v = [] \/ word (v_bot v) /\ (List.length (v_bot v) <= 20)%nat) /\
                            (v_top v = [] \/ word (v_top v))) (vias h) }.

(** What is read: the version line has grown, the origin is the size, a missing neighbour of a via is
    called None. *)
Definition read_back (h : hdr) : hdr :=
  mkhdr (encrypted h) (head h ++ [32] ++ (if encrypted h then bytes "(encrypted)" else []))
    (resolution h) (scale h) (die h) (die h) (tiles h) (temps h) (layers h) (tech h)
    (map (fun v => mkvl (v_name v) (match v_bot v with [] => bytes "None" | _ => v_bot v end)
                        (match v_top v with [] => bytes "None" | _ => v_top v end)) (vias h))
    (metals h).
