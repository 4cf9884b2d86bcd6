(** Object identity and mutation of states, isotopes and elements (ries/constituents/{state,isotope,element}.py).

    [M_Constituents] describes the values of freshly created objects.  Here the objects have addresses
    and hold references to the dictionaries and lists that were passed to the constructors, and a program
    is a list of statements that creates and modifies them.  Attributes other than the ones listed under
    [stmt] are not assigned to by user code (simplification). *)
From Coq Require Import Reals List String ZArith.
From Verif Require Import Py M_Constituents.
Import ListNotations.
Open Scope R_scope.
Open Scope py_scope.

(** state.py:64-76, 95-113: the attributes [partial_widths] (a reference) and [width] (a number). *)
Record state_obj := {
  so_J_pi : string; so_two_J : Z; so_parity : Z; so_energy : R;
  so_decays : option (nat * R)
}.
(** isotope.py:44-61: [excited_states] is a reference to a list. *)
Record iso_obj := { io_AX : string; io_amu : R; io_ground : option nat; io_excited : nat }.
(** element.py:68-88: references to two dictionaries, and the number [amu]. *)
Record el_obj := {
  eo_Z : Z; eo_X : string; eo_isotopes : nat; eo_abundances : nat; eo_density : option R; eo_amu : R
}.

(** Objects of the same kind are numbered in the order of their creation. *)
Record world := {
  w_dicts : list (dict R);            (* dictionaries with numbers *)
  w_isodicts : list (dict nat);       (* dictionaries with isotopes *)
  w_lists : list (list nat);          (* lists of states *)
  w_states : list state_obj;
  w_isos : list iso_obj;
  w_els : list el_obj
}.
Definition nothing : world :=
  {| w_dicts := []; w_isodicts := []; w_lists := []; w_states := []; w_isos := []; w_els := [] |}.

(** A name that is not bound yet. *)
Definition at_address {A} (l : list A) (a : nat) : out A :=
  match nth_error l a with Some x => Ok x | None => Raise UnboundLocalError end.
Definition update {A} (l : list A) (a : nat) (x : A) : list A := firstn a l ++ x :: skipn (S a) l.

(** What the attributes of an object give at present (attribute access follows the references). *)
Definition state_of (w : world) (s : nat) : out state :=
  let! o := at_address (w_states w) s in
  let! d := match so_decays o with
            | None => Ok None
            | Some (a, x) => let! d := at_address (w_dicts w) a in Ok (Some (d, x))
            end in
  Ok {| st_J_pi := so_J_pi o; st_two_J := so_two_J o; st_parity := so_parity o;
        st_excitation_energy := so_energy o; st_decays := d |}.
Definition iso_of (w : world) (i : nat) : out (isotope R) :=
  let! o := at_address (w_isos w) i in
  let! g := match io_ground o with None => Ok None | Some s => omap Some (state_of w s) end in
  let! l := at_address (w_lists w) (io_excited o) in
  let! ex := traverse (state_of w) l in
  Ok {| iso_name := io_AX o; iso_mass := io_amu o; iso_ground_state := g; iso_excited_states := ex |}.
Definition isos_of (w : world) (d : dict nat) : out (dict (isotope R)) :=
  traverse (fun ki => let! i := iso_of w (snd ki) in Ok (fst ki, i)) d.
Definition element_of (w : world) (e : nat) : out (element R) :=
  let! o := at_address (w_els w) e in
  let! d := at_address (w_isodicts w) (eo_isotopes o) in
  let! isos := isos_of w d in
  let! ab := at_address (w_dicts w) (eo_abundances o) in
  Ok {| el_Z := eo_Z o; el_X := eo_X o; el_isotopes := isos; el_abundances := ab;
        el_density := eo_density o; el_amu := eo_amu o |}.

Inductive stmt :=
  | SDict (d : dict R)                                     (* a new dictionary of numbers *)
  | SIsoDict (d : dict nat)                                (* a new dictionary of isotopes *)
  | SList (l : list nat)                                   (* a new list of states *)
  | SGround (J_pi : string) (two_J parity : Z)             (* GroundState(...) *)
  | SState (J_pi : string) (two_J parity : Z) (E : R) (d : nat)                  (* State(..., d) *)
  | SIsotope (AX : string) (amu : R) (ground : option nat) (excited : option nat)  (* Isotope(...) *)
  | SElement (Z : Z) (X : string) (isotopes abundances : nat) (density : option R) (* Element(...) *)
  | SSet (d : nat) (k : string) (v : R)                    (* d[k] = v *)
  | SDel (d : nat) (k : string)                            (* del d[k] *)
  | SIsoSet (d : nat) (k : string) (i : nat)               (* d[k] = i, for a dictionary of isotopes *)
  | SAppend (l : nat) (s : nat)                            (* l.append(s) *)
  | SAmu (i : nat) (v : R)                                 (* i.amu = v *)
  | SEnergy (s : nat) (v : R)                              (* s.excitation_energy = v *)
  | SWidths (s : nat) (d : nat).                           (* s.partial_widths = d, only for excited states (simplification) *)

Definition with_dicts (w : world) (x : list (dict R)) : world :=
  {| w_dicts := x; w_isodicts := w_isodicts w; w_lists := w_lists w; w_states := w_states w; w_isos := w_isos w; w_els := w_els w |}.
Definition with_isodicts (w : world) (x : list (dict nat)) : world :=
  {| w_dicts := w_dicts w; w_isodicts := x; w_lists := w_lists w; w_states := w_states w; w_isos := w_isos w; w_els := w_els w |}.
Definition with_lists (w : world) (x : list (list nat)) : world :=
  {| w_dicts := w_dicts w; w_isodicts := w_isodicts w; w_lists := x; w_states := w_states w; w_isos := w_isos w; w_els := w_els w |}.
Definition with_states (w : world) (x : list state_obj) : world :=
  {| w_dicts := w_dicts w; w_isodicts := w_isodicts w; w_lists := w_lists w; w_states := x; w_isos := w_isos w; w_els := w_els w |}.
Definition with_isos (w : world) (x : list iso_obj) : world :=
  {| w_dicts := w_dicts w; w_isodicts := w_isodicts w; w_lists := w_lists w; w_states := w_states w; w_isos := x; w_els := w_els w |}.
Definition with_els (w : world) (x : list el_obj) : world :=
  {| w_dicts := w_dicts w; w_isodicts := w_isodicts w; w_lists := w_lists w; w_states := w_states w; w_isos := w_isos w; w_els := x |}.

(** [del d[k]]. *)
Definition ddel {V} (d : dict V) (k : string) : dict V := filter (fun kv => negb (String.eqb k (fst kv))) d.

(** A dictionary display: later items replace earlier ones with the same key. *)
Definition ddisplay {V} (d : dict V) : dict V := fold_left (fun acc kv => dset acc (fst kv) (snd kv)) d [].

Definition step (w : world) (s : stmt) : out world :=
  match s with
  | SDict d => Ok (with_dicts w (w_dicts w ++ [ddisplay d]))
  | SIsoDict d =>
      let! _ := traverse (fun ki => at_address (w_isos w) (snd ki)) d in
      Ok (with_isodicts w (w_isodicts w ++ [ddisplay d]))
  | SList l =>
      let! _ := traverse (at_address (w_states w)) l in
      Ok (with_lists w (w_lists w ++ [l]))
  | SGround J two_J p =>
      (* state.py:64-76 *)
      let s := GroundState J two_J p in
      Ok (with_states w (w_states w ++ [{| so_J_pi := st_J_pi s; so_two_J := st_two_J s; so_parity := st_parity s;
            so_energy := st_excitation_energy s; so_decays := None |}]))
  | SState J two_J p E a =>
      (* state.py:95-113: the attribute refers to the dictionary, the width is a number computed once *)
      let! d := at_address (w_dicts w) a in
      let! s := State J two_J p E d in
      let! x := width s in
      Ok (with_states w (w_states w ++ [{| so_J_pi := st_J_pi s; so_two_J := st_two_J s; so_parity := st_parity s;
            so_energy := st_excitation_energy s; so_decays := Some (a, x) |}]))
  | SIsotope AX amu g ex =>
      (* isotope.py:58-61: [excited_states or []] is the passed list unless it is None or empty *)
      let! _ := match g with None => Ok tt | Some s => omap (fun _ => tt) (at_address (w_states w) s) end in
      let fresh := (with_lists w (w_lists w ++ [[]]), List.length (w_lists w)) in
      let! (w1, a) := match ex with
                      | None => Ok fresh
                      | Some a => let! l := at_address (w_lists w) a in
                                  Ok (match l with [] => fresh | _ :: _ => (w, a) end)
                      end in
      Ok (with_isos w1 (w_isos w1 ++ [{| io_AX := AX; io_amu := amu; io_ground := g; io_excited := a |}]))
  | SElement Z X di da density =>
      (* element.py:83-88: references to the dictionaries, the mass is a number computed once *)
      let! d := at_address (w_isodicts w) di in
      let! isos := isos_of w d in
      let! ab := at_address (w_dicts w) da in
      let! e := Element_R Z X isos ab density in
      Ok (with_els w (w_els w ++ [{| eo_Z := el_Z e; eo_X := el_X e; eo_isotopes := di; eo_abundances := da;
            eo_density := el_density e; eo_amu := el_amu e |}]))
  | SSet a k v =>
      let! d := at_address (w_dicts w) a in Ok (with_dicts w (update (w_dicts w) a (dset d k v)))
  | SDel a k =>
      let! d := at_address (w_dicts w) a in
      let! _ := dgetE d k in Ok (with_dicts w (update (w_dicts w) a (ddel d k)))
  | SIsoSet a k i =>
      let! d := at_address (w_isodicts w) a in
      let! _ := at_address (w_isos w) i in Ok (with_isodicts w (update (w_isodicts w) a (dset d k i)))
  | SAppend a s =>
      let! l := at_address (w_lists w) a in
      let! _ := at_address (w_states w) s in Ok (with_lists w (update (w_lists w) a (l ++ [s])))
  | SAmu i v =>
      let! o := at_address (w_isos w) i in
      Ok (with_isos w (update (w_isos w) i {| io_AX := io_AX o; io_amu := v; io_ground := io_ground o; io_excited := io_excited o |}))
  | SEnergy s v =>
      let! o := at_address (w_states w) s in
      Ok (with_states w (update (w_states w) s {| so_J_pi := so_J_pi o; so_two_J := so_two_J o; so_parity := so_parity o;
            so_energy := v; so_decays := so_decays o |}))
  | SWidths s a =>
      let! o := at_address (w_states w) s in
      let! _ := at_address (w_dicts w) a in
      let! x := match so_decays o with Some (_, x) => Ok x | None => Raise AttributeError end in
      Ok (with_states w (update (w_states w) s {| so_J_pi := so_J_pi o; so_two_J := so_two_J o; so_parity := so_parity o;
            so_energy := so_energy o; so_decays := Some (a, x) |}))
  end.

(** A program: the statements one after the other; an exception ends it. *)
Fixpoint run_program (w : world) (p : list stmt) : out world :=
  match p with
  | [] => Ok w
  | s :: r => let! w1 := step w s in run_program w1 r
  end.
