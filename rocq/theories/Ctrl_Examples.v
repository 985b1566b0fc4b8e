(** The literal vectors of lib/python/moteus/test/moteus_test.py and
    multiplex_test.py, run on the model: a check that the translation
    agrees with the project's own expectations (tests, not proofs). *)
From Coq Require Import ZArith List Bool.
From Coq Require Import Floats.SpecFloat.
From Verif Require Import PyBase PyFloat Mux_Model Ctrl_Model.
Import ListNotations.
Open Scope Z_scope.
Open Scope py_scope.

Definition dut : controller :=
  match make_controller 1 default_query_resolution default_position_resolution
          default_vfoc_resolution default_current_resolution default_pwm_resolution 0 with
  | Ok c => c
  | Raise _ => {| ct_id := 0; ct_query := default_query_resolution;
                  ct_position := default_position_resolution;
                  ct_vfoc := default_vfoc_resolution;
                  ct_current := default_current_resolution;
                  ct_pwm := []; ct_prefix := 0; ct_query_data := [];
                  ct_query_reply_size := 0 |}
  end.

Definition no_args : position_args :=
  Build_position_args None None None None None None None None None None None None.

Definition data_of (c : res command) : res (list Z * Z * bool) :=
  let* c := c in Ok (cmd_data c, cmd_expected_reply_size c, cmd_reply_required c).

(* moteus_test.py:31-38 *)
Example t_position_empty :
  data_of (make_position dut no_args false None) = Ok ([0x01; 0x00; 0x0a], 0, false).
Proof. vm_compute. reflexivity. Qed.

(* moteus_test.py:40-60 *)
Example t_position :
  data_of (make_position dut
    (Build_position_args (Some fnan) (Some (flit 2 0)) (Some (flit (-3) 1)) None None
       (Some (flit 2 0)) (Some (flit 0 0)) (Some (flit 0 0)) None None None None) false None)
  = Ok ([0x01; 0x00; 0x0a; 0x0f; 0x20; 0x00; 0x00; 0xc0; 0x7f; 0x00; 0x00; 0x00; 0x40;
         0x9a; 0x99; 0x99; 0xbe; 0x0f; 0x25; 0x00; 0x00; 0x00; 0x40; 0x00; 0x00; 0x00; 0x00;
         0x00; 0x00; 0x00; 0x00], 0, false).
Proof. vm_compute. reflexivity. Qed.

(* moteus_test.py:62-73 *)
Example t_position2 :
  data_of (make_position dut
    (Build_position_args (Some fnan) (Some (flit 1 0)) None None None
       (Some (flit 0 0)) (Some (flit 15 2)) None None None None None) false None)
  = Ok ([0x01; 0x00; 0x0a; 0x0e; 0x20; 0x00; 0x00; 0xc0; 0x7f; 0x00; 0x00; 0x80; 0x3f;
         0x0e; 0x25; 0; 0; 0; 0; 0x9a; 0x99; 0x19; 0x3e], 0, false).
Proof. vm_compute. reflexivity. Qed.

(* moteus_test.py:75-85 *)
Example t_position_query :
  data_of (make_position dut no_args true None)
  = Ok ([0x01; 0x00; 0x0a; 0x11; 0x00; 0x1f; 0x01; 0x13; 0x0d], 22, true).
Proof. vm_compute. reflexivity. Qed.

(* moteus_test.py:91-113 *)
Example t_parse :
  parse_reply [0x24; 0x04; 0x00; 0x0a; 0x00; 0x10; 0x02; 0x00; 0xfe; 0x20; 0x00;
               0x23; 0x0d; 0x20; 0x30; 0x40]
  = Ok [(0, PInt 10); (1, PFloat (flit 528 4)); (2, PFloat (flit (-128) 3));
        (3, PFloat (flit 32 2)); (13, PFloat (flit 16 0)); (14, PFloat (flit 48 0));
        (15, PInt 64)].
Proof. vm_compute. reflexivity. Qed.

Definition all_query : query_resolution := {|
  q_mode := INT16; q_position := INT16; q_velocity := INT16; q_torque := INT16;
  q_q_current := INT16; q_d_current := INT16; q_abs_position := INT16;
  q_power := INT16; q_motor_temperature := INT8;
  q_trajectory_complete := INT8; q_rezero_state := IGNORE;
  q_home_state := INT8; q_voltage := INT8; q_temperature := INT8;
  q_fault := INT8; q_aux1_gpio := INT8; q_aux2_gpio := INT8; q_extra := [] |}.

(* moteus_test.py:137-145 *)
Example t_query_all :
  data_of (make_position dut no_args true (Some all_query))
  = Ok ([0x01; 0x00; 0x0a; 0x14; 0x08; 0x00; 0x10; 0x06; 0x0a; 0x12; 0x5e], 32, true).
Proof. vm_compute. reflexivity. Qed.

(* moteus_test.py:208-226 *)
Definition with_extra (e : list (Z * resolution)) : query_resolution := {|
  q_mode := INT8; q_position := F32; q_velocity := F32; q_torque := F32;
  q_q_current := IGNORE; q_d_current := IGNORE; q_abs_position := IGNORE;
  q_power := IGNORE; q_motor_temperature := IGNORE;
  q_trajectory_complete := IGNORE; q_rezero_state := IGNORE;
  q_home_state := IGNORE; q_voltage := INT8; q_temperature := INT8;
  q_fault := INT8; q_aux1_gpio := IGNORE; q_aux2_gpio := IGNORE; q_extra := e |}.

Example t_query_extra :
  data_of (make_query dut (Some (with_extra [(0x30, F32); (0x31, F32); (0x32, F32); (0x33, F32)])))
  = Ok ([0x11; 0x00; 0x1f; 0x01; 0x13; 0x0d; 0x1c; 0x04; 0x30], 41, true).
Proof. vm_compute. reflexivity. Qed.

(* moteus_test.py:363-384 *)
Example t_query_extra_disjoint :
  data_of (make_query dut (Some (with_extra
     [(0x30, F32); (0x31, F32); (0x33, F32); (0x34, F32); (0x35, F32); (0x36, F32)])))
  = Ok ([0x11; 0x00; 0x1f; 0x01; 0x13; 0x0d; 0x1e; 0x30; 0x1c; 0x04; 0x33], 51, true).
Proof. vm_compute. reflexivity. Qed.

(* moteus_test.py:245-262 *)
Example t_diag_read :
  data_of (make_diagnostic_read dut 48 1) = Ok ([0x42; 0x01; 0x30], 51, true).
Proof. vm_compute. reflexivity. Qed.
Example t_diag_parse :
  parse_diagnostic_data [0x41; 0x01; 0x04; 0x44; 0x45; 0x46; 0x47] 1
  = Some [0x44; 0x45; 0x46; 0x47] /\ parse_diagnostic_data [] 1 = None.
Proof. vm_compute. split; reflexivity. Qed.

(* moteus_test.py:264-276 *)
Example t_vfoc :
  data_of (make_vfoc dut (Some py_pi) (Some (flit 2 0)) (Some (fmul (flit 2 0) py_pi)) false None)
  = Ok ([0x01; 0x00; 0x07; 0x0e; 0x18; 0x00; 0x00; 0x80; 0x3f; 0x00; 0x00; 0x00; 0x40;
         0x0d; 0x1e; 0x00; 0x00; 0x00; 0x40], 0, false).
Proof. vm_compute. reflexivity. Qed.

(* moteus_test.py:278-288 *)
Example t_current :
  data_of (make_current dut (Some (flit 1 0)) (Some (flit 2 0)) false None)
  = Ok ([0x01; 0x00; 0x09; 0x0e; 0x1c; 0x00; 0x00; 0x00; 0x40; 0x00; 0x00; 0x80; 0x3f], 0, false).
Proof. vm_compute. reflexivity. Qed.

(* moteus_test.py:290-328 *)
Example t_brake : data_of (make_brake dut false None) = Ok ([0x01; 0x00; 0x0f], 0, false).
Proof. vm_compute. reflexivity. Qed.
Example t_nearest :
  data_of (make_set_output_nearest dut (flit 2 0) false None)
  = Ok ([0x0d; 0xb0; 0x02; 0x00; 0x00; 0x00; 0x40], 0, false).
Proof. vm_compute. reflexivity. Qed.
Example t_exact :
  data_of (make_set_output_exact dut (flit 2 0) false None)
  = Ok ([0x0d; 0xb1; 0x02; 0x00; 0x00; 0x00; 0x40], 0, false).
Proof. vm_compute. reflexivity. Qed.
Example t_reindex :
  data_of (make_require_reindex dut false None) = Ok ([0x01; 0xb2; 0x02; 0x01], 0, false).
Proof. vm_compute. reflexivity. Qed.

(* moteus_test.py:330-361 *)
Example t_gpio :
  data_of (make_write_gpio dut (Some 3) (Some 5) false None)
  = Ok ([0x02; 0x5c; 0x03; 0x05], 0, false).
Proof. vm_compute. reflexivity. Qed.
Example t_read_gpio : data_of (make_read_gpio dut) = Ok ([0x12; 0x5e], 22, true).
Proof. vm_compute. reflexivity. Qed.
Example t_trim : data_of (make_set_trim dut 2) = Ok ([0x09; 0x71; 2; 0; 0; 0], 0, false).
Proof. vm_compute. reflexivity. Qed.
Example t_pwm :
  data_of (make_aux_pwm dut [None; Some (flit 2 1); None; None; None; None; None; None;
                             Some (flit 4 1); None] false None)
  = Ok ([0x05; 0x77; 0x99; 0x19; 0x05; 0x7e; 0x32; 0x33], 0, false).
Proof. vm_compute. reflexivity. Qed.
