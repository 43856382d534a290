(** Model of the reset of the clock domain "sync" in examples/crg.py, with a core of that domain.

    Simplifications: ResetSynchronizer (amaranth.lib.cdc, not part of the repository) is two
    flip-flops, 1 at power-up, that an asynchronous input sets; the PLL is its lock output,
    low at power-up, and clock edges that come at any time (or not at all while it is not
    locked).  The reset of "usb" with a ULPI PHY comes from LUNA's
    PHYResetController (68-71) and is not modelled. *)
From Verif Require Import Stream Reset_model.

(** A change of the lock of the PLL or of the reset button, or a clock edge of "sync" with the
    inputs of the core. *)
Inductive crg_event (I : Type) := CrgLevel (locked button : bool) | CrgEdge (i : I).
Arguments CrgLevel {I}. Arguments CrgEdge {I}.
Record crg_state (S : Type) := Crg { cg_arst : bool; cg_f1 : bool; cg_f2 : bool; cg_core : S }.
Arguments Crg {S}. Arguments cg_arst {S}. Arguments cg_f1 {S}. Arguments cg_f2 {S}. Arguments cg_core {S}.

Section Crg.
  (** [has_rst]: platform.default_rst is not None. *)
  Context {I O : Type} (has_rst : bool) (c : circuit I O) (keep : cst c -> cst c).
  (** sync_pll_arst, crg.py:62-65 *)
  Definition crg_arst (locked button : bool) : bool := if has_rst then negb locked || button else negb locked.
  (** crg.py:66.  Seen: at an edge, the reset of the domain and what the core shows. *)
  Definition with_crg : circuit (crg_event I) (option (bool * O)) :=
    Circuit (crg_state (cst c)) (Crg true true true (creset c))
      (fun s e => match e with CrgLevel _ _ => None | CrgEdge i => Some (cg_f2 s, cout c (cg_core s) i) end)
      (fun s e => match e with
        | CrgLevel l b => if crg_arst l b then Crg true true true (cg_core s) else Crg false (cg_f1 s) (cg_f2 s) (cg_core s)
        | CrgEdge i => Crg (cg_arst s) (cg_arst s) (cg_arst s || cg_f1 s) (cnext (resettable c keep) (cg_core s) (cg_f2 s, i))
        end).
  (** The domains "usb" and "usb_io" without ULPI, crg.py:73-79: their reset is the request
      itself, looked at by their registers at an edge of their clock. *)
  Definition with_crg_usb : circuit (crg_event I) (option (bool * O)) :=
    Circuit (bool * cst c) (true, creset c)
      (fun s e => match e with CrgLevel _ _ => None | CrgEdge i => Some (fst s, cout c (snd s) i) end)
      (fun s e => match e with
        | CrgLevel l b => (crg_arst l b, snd s)
        | CrgEdge i => (fst s, cnext (resettable c keep) (snd s) (fst s, i))
        end).
End Crg.
