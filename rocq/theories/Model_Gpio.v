(** Model of the pins: src/generic-gpio.cc (host), src/pru-generic-io-routines.hp and
    hardware/<CAPE>/pru-io-routines.hp (firmware), src/motor-interface-constants.h and
    hardware/<CAPE>/beagleg-pin-mapping.h (which pin does what).
    The GPIO registers behave as the manual of the chip says: writing ones to
    SETDATAOUT and CLEARDATAOUT sets or clears these bits of the output latch, other bits
    stay; DATAIN shows what is at the pins and is given by the environment. *)
From Verif Require Import Base Model_Axis Model_Hardware Model_MotorOps Model_Pru Model_PruQueue.

(** motor-interface-constants.h:42-45 *)
Definition GPIO_BASE (b : Z) : Z :=
  if b =? 0 then 0x44e07000 else if b =? 1 then 0x4804c000 else if b =? 2 then 0x481ac000 else 0x481ae000.
(** motor-interface-constants.h:48-52 *)
Definition GPIO_OE : Z := 0x134.
Definition GPIO_DATAIN : Z := 0x138.
Definition GPIO_CLEARDATAOUT : Z := 0x190.
Definition GPIO_SETDATAOUT : Z := 0x194.

(** The registers of the four banks, by number of the bank. *)
Record regs := mk_regs { r_oe : Z -> Z; r_out : Z -> Z; r_in : Z -> Z }.
Definition set_at (f : Z -> Z) (b v : Z) : Z -> Z := fun x => if x =? b then v else f x.
(** The chip: writing and reading a register of a bank. *)
Definition reg_write (b off w : Z) (r : regs) : regs :=
  if off =? GPIO_OE then mk_regs (set_at (r_oe r) b w) (r_out r) (r_in r)
  else if off =? GPIO_SETDATAOUT then mk_regs (r_oe r) (set_at (r_out r) b (Z.lor (r_out r b) w)) (r_in r)
  else if off =? GPIO_CLEARDATAOUT then mk_regs (r_oe r) (set_at (r_out r) b (Z.land (r_out r b) (Z.lnot w))) (r_in r)
  else r.
Definition reg_read (b off : Z) (r : regs) : Z :=
  if off =? GPIO_OE then r_oe r b else if off =? GPIO_DATAIN then r_in r b else 0.

(** generic-gpio.cc:53-59, 88-93: the switch over gpio_def & 0xfffff000 *)
Definition bank_of (def : Z) : option Z :=
  let m := Z.land def 0xfffff000 in
  if m =? GPIO_BASE 0 then Some 0 else if m =? GPIO_BASE 1 then Some 1
  else if m =? GPIO_BASE 2 then Some 2 else if m =? GPIO_BASE 3 then Some 3 else None.
(** generic-gpio.cc:64, 76, 82, 87; pru-generic-io-routines.hp:37: 1 << (gpio_def & 0x1f) *)
Definition mask_of (def : Z) : Z := Z.shiftl 1 (Z.land def 0x1f).

(** ** The host *)
(** generic-gpio.cc:46-50: a pointer to a bank: NULL, MAP_FAILED or the mapped registers *)
Inductive ptr := Null | Bad | At.
Record gsys := mk_gsys { g_regs : regs; g_ptr : Z -> ptr }.
Definition with_regs (s : gsys) (r : regs) : gsys := mk_gsys r (g_ptr s).
(** generic-gpio.cc:52-60 get_gpio_base: the bank and the pointer to it *)
Definition get_gpio_base (s : gsys) (def : Z) : option (Z * ptr) :=
  match bank_of def with
  | Some b => match g_ptr s b with Null => None | p => Some (b, p) end
  | None => None
  end.
(** generic-gpio.cc:62-72 get_gpio *)
Definition get_gpio (s : gsys) (def : Z) : outcome Z :=
  match get_gpio_base s def with
  | Some (b, At) => Ok (if Z.land (reg_read b GPIO_DATAIN (g_regs s)) (mask_of def) =? 0 then 0 else 1)
  | Some (b, _) => Undefined
  | None => Ok (-1)
  end.
(** generic-gpio.cc:74-84 set_gpio, clr_gpio *)
Definition write_gpio (s : gsys) (off def : Z) : outcome gsys :=
  match get_gpio_base s def with
  | Some (b, At) => Ok (with_regs s (reg_write b off (mask_of def) (g_regs s)))
  | Some (b, _) => Undefined
  | None => Ok s
  end.
Definition set_gpio (s : gsys) (def : Z) : outcome gsys := write_gpio s GPIO_SETDATAOUT def.
Definition clr_gpio (s : gsys) (def : Z) : outcome gsys := write_gpio s GPIO_CLEARDATAOUT def.

(** motor-interface-constants.h:127-282 and the pin mapping of the cape: what
    [cape] has, and the pins of the motors *)
Record board := mk_board { b_cape : cape; b_step : motor -> Z; b_dir : motor -> Z }.
(** generic-gpio.cc:96-142: the order of the calls of set_gpio_mask *)
Definition out_pins (c : board) : list Z :=
  map (b_step c) all_motors ++ map (b_dir c) all_motors ++ [cape_enable (b_cape c)] ++
  map (cape_aux (b_cape c)) [1; 2; 3; 4; 5; 6; 7; 8; 9; 10; 11; 12; 13; 14; 15; 16] ++ map (cape_pwm (b_cape c)) [1; 2; 3; 4].
(** generic-gpio.cc:144-153 *)
Definition in_pins (c : board) : list Z := map (cape_switch (b_cape c)) [1; 2; 3; 4; 5; 6; 7; 8; 9].
(** generic-gpio.cc:86-94 set_gpio_mask *)
Definition set_gpio_mask (mask : Z -> Z) (def : Z) : Z -> Z :=
  match bank_of def with Some b => set_at mask b (Z.lor (mask b) (mask_of def)) | None => mask end.
Definition masks (defs : list Z) : Z -> Z := fold_left set_gpio_mask defs (fun _ => 0).
(** generic-gpio.cc:96-171 cfg_gpio_io *)
Definition cfg_gpio_io (c : board) (r : regs) : regs :=
  let output_mask := masks (out_pins c) in
  let input_mask := masks (in_pins c) in
  let r := fold_left (fun r b => reg_write b GPIO_OE (Z.land (reg_read b GPIO_OE r) (Z.lnot (output_mask b))) r) [0; 1; 2; 3] r in
  fold_left (fun r b => reg_write b GPIO_OE (Z.lor (reg_read b GPIO_OE r) (input_mask b)) r) [0; 1; 2; 3] r.
(** generic-gpio.cc:256-273 unmap_gpio *)
Definition unmap_gpio (s : gsys) : gsys :=
  mk_gsys (g_regs s) (fun b => if (0 <=? b) && (b <=? 3) then Null else g_ptr s b).
(** generic-gpio.cc:224-245: the four mappings in turn, [ok] tells which succeed *)
Fixpoint map_ports (ok : Z -> bool) (bs : list Z) (s : gsys) : bool * gsys :=
  match bs with
  | [] => (true, s)
  | b :: bs =>
      let s := mk_gsys (g_regs s) (fun x => if x =? b then (if ok b then At else Bad) else g_ptr s x) in
      if ok b then map_ports ok bs s else (false, s)
  end.
(** generic-gpio.cc:212-254 map_gpio. [opened], [clocks], [ok]: what open, mmap of the
    clock module and the mappings of the banks answer. Waiting for the clocks
    (178-189) is not modelled. *)
Definition map_gpio (c : board) (opened clocks : bool) (ok : Z -> bool) (s : gsys) : bool * gsys :=
  if negb opened then (false, s)
  else if negb clocks then (false, unmap_gpio s)
  else
    let '(all, s) := map_ports ok [0; 1; 2; 3] s in
    if all then (true, with_regs s (cfg_gpio_io c (g_regs s))) else (false, unmap_gpio s).

(** ** The firmware *)
(** A store of four bytes on the bus *)
Definition bus_write (addr w : Z) (r : regs) : regs :=
  match bank_of addr with Some b => reg_write b (addr - GPIO_BASE b) w r | None => r end.
Definition bus_read (addr : Z) (r : regs) : Z :=
  match bank_of addr with Some b => reg_read b (addr - GPIO_BASE b) r | None => 0 end.
(** pru-generic-io-routines.hp:33-47 SetGPIO; r4.w2 is the upper half of r4 *)
Definition set_gpio_macro (bits bit def : Z) (r : regs) : regs :=
  let r4 := Z.land def 0xfffff000 in
  if r4 / 65536 =? GPIO_NOT_MAPPED then r
  else
    let r5 := mask_of def in
    let r6 := if Z.testbit bits bit then GPIO_SETDATAOUT else GPIO_CLEARDATAOUT in
    bus_write (u32 (r4 + r6)) r5 r.
(** pru-generic-io-routines.hp:50-67 SetAuxBits; [r3] is travel_params.aux *)
Definition set_aux_bits (c : board) (r3 : Z) (r : regs) : regs :=
  fold_left (fun r i => set_gpio_macro r3 i (cape_aux (b_cape c) (i + 1)) r) [0; 1; 2; 3; 4; 5; 6; 7; 8; 9; 10; 11; 12; 13; 14; 15] r.
(** pru-generic-io-routines.hp:71-80 SetDirections *)
Definition set_directions (c : board) (r3 : Z) (r : regs) : regs :=
  fold_left (fun r m => set_gpio_macro r3 (motor_ix m) (b_dir c m) r) all_motors r.
(** pru-generic-io-routines.hp:83-92 SetSteps *)
Definition set_steps (c : board) (mstate : mreg) (r : regs) : regs :=
  fold_left (fun r m => set_gpio_macro (mstate m) 31 (b_step c m) r) all_motors r.
(** hardware/VGEN5/pru-io-routines.hp:17-32 CheckForEStop: the loop [debounce];
    [readings]: the registers of the pins at the two times they are read; the result is
    r0, [None] if more than these are needed. *)
Fixpoint debounce (addr bit r0 : Z) (readings : list regs) : option Z :=
  match readings with
  | [] => None
  | r :: readings =>
      if negb (Z.testbit (bus_read addr r) bit) then Some 0
      else if r0 =? 1 then Some r0
      else debounce addr bit 1 readings
  end.
(** motor-interface-pru.p:244-246: r0 is 0 at the call *)
Definition check_for_estop_vgen5 (c : board) (readings : list regs) : option Z :=
  let r4 := Z.land (cape_switch (b_cape c) 7) 0xfffff000 in
  if r4 / 65536 =? GPIO_NOT_MAPPED then Some 0
  else debounce (u32 (r4 + GPIO_DATAIN)) (Z.land (cape_switch (b_cape c) 7) 0x1f) 0 readings.

(** ** Histories: calls of the host, SetGPIO of the firmware, changes at the inputs *)
Inductive gop :=
| GMap (opened clocks : bool) (ok : Z -> bool) | GUnmap
| GSet (def : Z) | GClr (def : Z)
| GFirmware (bits bit def : Z)
| GInputs (f : Z -> Z).
Definition gstep (c : board) (s : gsys) (op : gop) : outcome gsys :=
  match op with
  | GMap o k ok => Ok (snd (map_gpio c o k ok s))
  | GUnmap => Ok (unmap_gpio s)
  | GSet d => set_gpio s d
  | GClr d => clr_gpio s d
  | GFirmware bits bit d => Ok (with_regs s (set_gpio_macro bits bit d (g_regs s)))
  | GInputs f => Ok (with_regs s (mk_regs (r_oe (g_regs s)) (r_out (g_regs s)) f))
  end.
Fixpoint grun (c : board) (s : gsys) (ops : list gop) : outcome gsys :=
  match ops with [] => Ok s | op :: ops => obind (gstep c s op) (fun s => grun c s ops) end.

(** ** The capes *)
(** motor-interface-constants.h:61-114: (GPIO_b_BASE | i) *)
Definition pin (b i : Z) : Z := Z.lor (GPIO_BASE b) i.
(** hardware/BUMPS/beagleg-pin-mapping.h:24-55 *)
Definition bumps : board := mk_board
  (mk_cape
    (fun n => if n =? 1 then pin 0 30 else if n =? 2 then pin 0 31 else GPIO_NOT_MAPPED)
    (fun n => if n =? 1 then pin 2 5 else if n =? 2 then pin 2 4 else if n =? 3 then pin 2 2 else if n =? 4 then pin 2 3 else GPIO_NOT_MAPPED)
    (fun n => if n =? 1 then pin 0 23 else if n =? 2 then pin 0 26 else if n =? 3 then pin 0 27 else GPIO_NOT_MAPPED)
    (pin 1 28) false)
  (fun m => match m with M1 => pin 0 4 | M2 => pin 0 5 | M3 => pin 0 3 | M4 => pin 0 7 | M5 => pin 0 2 | M6 => pin 0 14 | M7 => pin 0 15 | M8 => pin 0 20 end)
  (fun m => match m with M1 => pin 1 14 | M2 => pin 1 15 | M3 => pin 1 13 | M4 => pin 1 16 | M5 => pin 1 12 | M6 => pin 1 17 | M7 => pin 1 18 | M8 => pin 1 19 end).
(** hardware/CRAMPS/beagleg-pin-mapping.h:24-64 *)
Definition cramps : board := mk_board
  (mk_cape
    (fun n => if n =? 1 then pin 0 20 else if n =? 2 then pin 0 2 else if n =? 3 then pin 3 15 else if n =? 4 then pin 3 16 else if n =? 14 then pin 1 29 else if n =? 15 then pin 1 17 else if n =? 16 then pin 3 21 else GPIO_NOT_MAPPED)
    (fun n => if n =? 1 then pin 1 13 else if n =? 2 then pin 1 16 else if n =? 3 then pin 3 19 else if n =? 4 then pin 0 3 else GPIO_NOT_MAPPED)
    (fun n => if n =? 1 then pin 2 3 else if n =? 2 then pin 2 4 else if n =? 3 then pin 0 31 else if n =? 4 then pin 2 2 else if n =? 5 then pin 2 5 else if n =? 6 then pin 0 30 else if n =? 7 then pin 0 27 else GPIO_NOT_MAPPED)
    (pin 1 18) false)
  (fun m => match m with M1 => pin 0 23 | M2 => pin 1 15 | M3 => pin 0 22 | M4 => pin 1 19 | M5 => pin 0 5 | M6 => pin 0 15 | M7 => pin 0 7 | M8 => pin 3 14 end)
  (fun m => match m with M1 => pin 1 12 | M2 => pin 0 26 | M3 => pin 2 1 | M4 => pin 1 28 | M5 => pin 0 4 | M6 => pin 0 14 | M7 => pin 1 14 | M8 => pin 3 17 end).
(** hardware/Pockegotion/beagleg-pin-mapping.h:23-39 *)
Definition pockegotion : board := mk_board
  (mk_cape
    (fun _ => GPIO_NOT_MAPPED)
    (fun _ => GPIO_NOT_MAPPED)
    (fun n => if n =? 1 then pin 0 30 else if n =? 2 then pin 0 31 else if n =? 3 then pin 0 15 else if n =? 4 then pin 0 14 else GPIO_NOT_MAPPED)
    (pin 1 20) false)
  (fun m => match m with M1 => pin 3 21 | M2 => pin 3 18 | M3 => pin 3 15 | M4 => pin 3 19 | M5 => GPIO_NOT_MAPPED | M6 => GPIO_NOT_MAPPED | M7 => GPIO_NOT_MAPPED | M8 => GPIO_NOT_MAPPED end)
  (fun m => match m with M1 => pin 1 12 | M2 => pin 1 13 | M3 => pin 1 14 | M4 => pin 1 15 | M5 => GPIO_NOT_MAPPED | M6 => GPIO_NOT_MAPPED | M7 => GPIO_NOT_MAPPED | M8 => GPIO_NOT_MAPPED end).
(** hardware/VGEN5/beagleg-pin-mapping.h:23-67 *)
Definition vgen5 : board := mk_board
  (mk_cape
    (fun n => if n =? 1 then pin 2 2 else if n =? 2 then pin 2 3 else if n =? 3 then pin 2 5 else if n =? 4 then pin 2 4 else if n =? 5 then pin 1 18 else if n =? 6 then pin 0 5 else if n =? 7 then pin 0 4 else if n =? 8 then pin 0 3 else if n =? 9 then pin 0 2 else if n =? 10 then pin 0 15 else if n =? 11 then pin 0 14 else if n =? 12 then pin 3 17 else if n =? 13 then pin 3 15 else if n =? 14 then pin 3 14 else if n =? 16 then pin 1 29 else GPIO_NOT_MAPPED)
    (fun n => if n =? 1 then pin 2 2 else if n =? 2 then pin 2 3 else if n =? 3 then pin 2 5 else if n =? 4 then pin 2 4 else GPIO_NOT_MAPPED)
    (fun n => if n =? 1 then pin 1 15 else if n =? 2 then pin 1 14 else if n =? 3 then pin 1 13 else if n =? 4 then pin 1 12 else if n =? 5 then pin 0 23 else if n =? 6 then pin 0 26 else if n =? 7 then pin 0 27 else if n =? 8 then pin 2 1 else if n =? 9 then pin 0 22 else GPIO_NOT_MAPPED)
    (pin 1 19) true)
  (fun m => match m with M1 => pin 0 20 | M2 => pin 3 19 | M3 => pin 0 30 | M4 => pin 1 17 | M5 => pin 0 31 | M6 => GPIO_NOT_MAPPED | M7 => GPIO_NOT_MAPPED | M8 => GPIO_NOT_MAPPED end)
  (fun m => match m with M1 => pin 0 7 | M2 => pin 3 16 | M3 => pin 1 28 | M4 => pin 3 21 | M5 => pin 1 16 | M6 => GPIO_NOT_MAPPED | M7 => GPIO_NOT_MAPPED | M8 => GPIO_NOT_MAPPED end).
