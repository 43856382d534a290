(** Model of lambdalib/cores/spi/bridge.py. *)
From Verif Require Import Stream.

(** ** SPIWishboneBridge, bridge.py:14-100.  Stream payload: (data, len)
    (spi_slave_layout, common.py:26-30).  bytecount (45-46) is never used. *)
Inductive br_fsm := BrCommand | BrAddr | BrRun.
(** Registers: the FSM (48), command.write, command.count (37-41; const is never
    read), addr (42). *)
Record br_state := Br { bf : br_fsm; b_write : bool; b_count : Z; b_addr : Z }.
Record br_in := BrIn { bi_sink : chan (Z * Z); bi_rready : bool; bi_ack : bool; bi_dat_r : Z }.
(** One cycle: both streams and the wishbone signals. *)
Record br_obs := BrObs { bo_io : obs (Z * Z) (Z * Z);
                         bo_cyc : bool; bo_stb : bool; bo_we : bool; bo_adr : Z; bo_dat_w : Z;
                         bo_ack : bool; bo_dat_r : Z }.
Section Bridge.
  Context (width addr_width : Z).
  Definition br_wordlen : Z := width / 8.                                             (* 44 *)
  Definition br_shift : Z := width - addr_width.                                      (* 43 *)
  Definition br_final (s : br_state) : bool := b_count s <=? br_wordlen.              (* 89, 96 *)
  Definition br_stb (s : br_state) (i : br_in) : bool :=                              (* 76, 84 *)
    match bf s with BrRun => if b_write s then cvalid (bi_sink i) else bi_rready i | _ => false end.
  Definition br_ready (s : br_state) (i : br_in) : bool :=                            (* 51, 58, 79 *)
    match bf s with BrRun => b_write s && bi_ack i | _ => true end.
  Definition br_src (s : br_state) (i : br_in) : chan (Z * Z) :=                      (* 86-89 *)
    match bf s with
    | BrRun => if b_write s then Chan false (Beat false false (0, 0))
               else Chan (bi_ack i) (Beat false (br_final s) (bi_dat_r i, width))
    | _ => Chan false (Beat false false (0, 0))
    end.
  Definition bridge : circuit br_in br_obs :=
    Circuit br_state (Br BrCommand false 0 0)
      (fun s i =>
         let run := match bf s with BrRun => true | _ => false end in
         BrObs (Obs (bi_sink i) (br_ready s i) (br_src s i) (bi_rready i))
           run (br_stb s i) (run && b_write s)                                        (* 68-69 *)
           (if run then trunc addr_width (Z.shiftr (b_addr s) br_shift) else 0)       (* 70 *)
           (if run && b_write s then fst (bdata (cbeat (bi_sink i))) else 0)          (* 78 *)
           (bi_ack i) (bi_dat_r i))
      (fun s i =>
         let data := fst (bdata (cbeat (bi_sink i))) in
         let len := snd (bdata (cbeat (bi_sink i))) in
         match bf s with
         | BrCommand =>                                                               (* 50-55 *)
             if cvalid (bi_sink i) && (len =? width)
             then Br BrAddr (Z.odd data) (trunc (width - 2) (Z.shiftr data 2)) (b_addr s) else s
         | BrAddr =>                                                                  (* 57-64 *)
             if cvalid (bi_sink i)
             then if len =? width then Br BrRun (b_write s) (b_count s) (trunc width data)
                  else Br BrCommand (b_write s) (b_count s) (b_addr s)
             else s
         | BrRun =>                                                                   (* 92-98 *)
             if br_stb s i && bi_ack i
             then Br (if br_final s || (b_write s && (len <? width)) then BrCommand else BrRun) (b_write s)
                     (trunc (width - 2) (b_count s - br_wordlen)) (trunc width (b_addr s + br_wordlen))
             else s
         end).
End Bridge.
