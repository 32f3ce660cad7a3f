(** Model of yaocptool/modelling/ocp.py: editing, merging, connecting, checking and
    simulating optimal control problems. *)
From Coq Require Import String.
From Verif Require Import Base UtilModel ExprModel NlpModel SysModel SimModel.
Local Open Scope list_scope.
Local Open Scope cmd_scope.

(** ocp.py:66-126: the attributes of a problem.  Bounds are numbers or infinities,
    [when] tags are strings; [o_L], [o_V], [o_S] are the entries of the cost vectors.
    The attributes [name], [_model], [H], [parametrized_control] and [NULL_OBJ] are not
    modelled. *)
Record ocp := mkOcp
  { o_t_0 : Q; o_t_f : Q; o_x_0 : list Q; o_model : model;
    o_eta : list sym; o_p_opt : list sym; o_theta_opt : list sym;
    o_x_min : list ext; o_x_max : list ext; o_y_min : list ext; o_y_max : list ext;
    o_u_min : list ext; o_u_max : list ext; o_du_min : list ext; o_du_max : list ext;
    o_p_min : list ext; o_p_max : list ext; o_th_min : list ext; o_th_max : list ext;
    o_h : list expr; o_h_initial : list expr; o_h_final : list expr;
    o_g_eq : list expr; o_g_ineq : list expr;
    o_when_eq : list string; o_when_ineq : list string;
    o_L : list expr; o_V : list expr; o_S : list expr;
    o_last_u : option (list Q); o_y_guess : option (list Q); o_u_guess : option (list Q);
    o_positive : bool; o_x_cost : option (list sym) }.

Definition set_o_t_0 v o := mkOcp v (o_t_f o) (o_x_0 o) (o_model o) (o_eta o) (o_p_opt o)
  (o_theta_opt o) (o_x_min o) (o_x_max o) (o_y_min o) (o_y_max o) (o_u_min o) (o_u_max o)
  (o_du_min o) (o_du_max o) (o_p_min o) (o_p_max o) (o_th_min o) (o_th_max o) (o_h o) (o_h_initial
  o) (o_h_final o) (o_g_eq o) (o_g_ineq o) (o_when_eq o) (o_when_ineq o) (o_L o) (o_V o) (o_S o)
  (o_last_u o) (o_y_guess o) (o_u_guess o) (o_positive o) (o_x_cost o).
Definition set_o_t_f v o := mkOcp (o_t_0 o) v (o_x_0 o) (o_model o) (o_eta o) (o_p_opt o)
  (o_theta_opt o) (o_x_min o) (o_x_max o) (o_y_min o) (o_y_max o) (o_u_min o) (o_u_max o)
  (o_du_min o) (o_du_max o) (o_p_min o) (o_p_max o) (o_th_min o) (o_th_max o) (o_h o) (o_h_initial
  o) (o_h_final o) (o_g_eq o) (o_g_ineq o) (o_when_eq o) (o_when_ineq o) (o_L o) (o_V o) (o_S o)
  (o_last_u o) (o_y_guess o) (o_u_guess o) (o_positive o) (o_x_cost o).
Definition set_o_x_0 v o := mkOcp (o_t_0 o) (o_t_f o) v (o_model o) (o_eta o) (o_p_opt o)
  (o_theta_opt o) (o_x_min o) (o_x_max o) (o_y_min o) (o_y_max o) (o_u_min o) (o_u_max o)
  (o_du_min o) (o_du_max o) (o_p_min o) (o_p_max o) (o_th_min o) (o_th_max o) (o_h o) (o_h_initial
  o) (o_h_final o) (o_g_eq o) (o_g_ineq o) (o_when_eq o) (o_when_ineq o) (o_L o) (o_V o) (o_S o)
  (o_last_u o) (o_y_guess o) (o_u_guess o) (o_positive o) (o_x_cost o).
Definition set_o_model v o := mkOcp (o_t_0 o) (o_t_f o) (o_x_0 o) v (o_eta o) (o_p_opt o)
  (o_theta_opt o) (o_x_min o) (o_x_max o) (o_y_min o) (o_y_max o) (o_u_min o) (o_u_max o)
  (o_du_min o) (o_du_max o) (o_p_min o) (o_p_max o) (o_th_min o) (o_th_max o) (o_h o) (o_h_initial
  o) (o_h_final o) (o_g_eq o) (o_g_ineq o) (o_when_eq o) (o_when_ineq o) (o_L o) (o_V o) (o_S o)
  (o_last_u o) (o_y_guess o) (o_u_guess o) (o_positive o) (o_x_cost o).
Definition set_o_eta v o := mkOcp (o_t_0 o) (o_t_f o) (o_x_0 o) (o_model o) v (o_p_opt o)
  (o_theta_opt o) (o_x_min o) (o_x_max o) (o_y_min o) (o_y_max o) (o_u_min o) (o_u_max o)
  (o_du_min o) (o_du_max o) (o_p_min o) (o_p_max o) (o_th_min o) (o_th_max o) (o_h o) (o_h_initial
  o) (o_h_final o) (o_g_eq o) (o_g_ineq o) (o_when_eq o) (o_when_ineq o) (o_L o) (o_V o) (o_S o)
  (o_last_u o) (o_y_guess o) (o_u_guess o) (o_positive o) (o_x_cost o).
Definition set_o_p_opt v o := mkOcp (o_t_0 o) (o_t_f o) (o_x_0 o) (o_model o) (o_eta o) v
  (o_theta_opt o) (o_x_min o) (o_x_max o) (o_y_min o) (o_y_max o) (o_u_min o) (o_u_max o)
  (o_du_min o) (o_du_max o) (o_p_min o) (o_p_max o) (o_th_min o) (o_th_max o) (o_h o) (o_h_initial
  o) (o_h_final o) (o_g_eq o) (o_g_ineq o) (o_when_eq o) (o_when_ineq o) (o_L o) (o_V o) (o_S o)
  (o_last_u o) (o_y_guess o) (o_u_guess o) (o_positive o) (o_x_cost o).
Definition set_o_theta_opt v o := mkOcp (o_t_0 o) (o_t_f o) (o_x_0 o) (o_model o) (o_eta o)
  (o_p_opt o) v (o_x_min o) (o_x_max o) (o_y_min o) (o_y_max o) (o_u_min o) (o_u_max o) (o_du_min
  o) (o_du_max o) (o_p_min o) (o_p_max o) (o_th_min o) (o_th_max o) (o_h o) (o_h_initial o)
  (o_h_final o) (o_g_eq o) (o_g_ineq o) (o_when_eq o) (o_when_ineq o) (o_L o) (o_V o) (o_S o)
  (o_last_u o) (o_y_guess o) (o_u_guess o) (o_positive o) (o_x_cost o).
Definition set_o_x_min v o := mkOcp (o_t_0 o) (o_t_f o) (o_x_0 o) (o_model o) (o_eta o) (o_p_opt
  o) (o_theta_opt o) v (o_x_max o) (o_y_min o) (o_y_max o) (o_u_min o) (o_u_max o) (o_du_min o)
  (o_du_max o) (o_p_min o) (o_p_max o) (o_th_min o) (o_th_max o) (o_h o) (o_h_initial o)
  (o_h_final o) (o_g_eq o) (o_g_ineq o) (o_when_eq o) (o_when_ineq o) (o_L o) (o_V o) (o_S o)
  (o_last_u o) (o_y_guess o) (o_u_guess o) (o_positive o) (o_x_cost o).
Definition set_o_x_max v o := mkOcp (o_t_0 o) (o_t_f o) (o_x_0 o) (o_model o) (o_eta o) (o_p_opt
  o) (o_theta_opt o) (o_x_min o) v (o_y_min o) (o_y_max o) (o_u_min o) (o_u_max o) (o_du_min o)
  (o_du_max o) (o_p_min o) (o_p_max o) (o_th_min o) (o_th_max o) (o_h o) (o_h_initial o)
  (o_h_final o) (o_g_eq o) (o_g_ineq o) (o_when_eq o) (o_when_ineq o) (o_L o) (o_V o) (o_S o)
  (o_last_u o) (o_y_guess o) (o_u_guess o) (o_positive o) (o_x_cost o).
Definition set_o_y_min v o := mkOcp (o_t_0 o) (o_t_f o) (o_x_0 o) (o_model o) (o_eta o) (o_p_opt
  o) (o_theta_opt o) (o_x_min o) (o_x_max o) v (o_y_max o) (o_u_min o) (o_u_max o) (o_du_min o)
  (o_du_max o) (o_p_min o) (o_p_max o) (o_th_min o) (o_th_max o) (o_h o) (o_h_initial o)
  (o_h_final o) (o_g_eq o) (o_g_ineq o) (o_when_eq o) (o_when_ineq o) (o_L o) (o_V o) (o_S o)
  (o_last_u o) (o_y_guess o) (o_u_guess o) (o_positive o) (o_x_cost o).
Definition set_o_y_max v o := mkOcp (o_t_0 o) (o_t_f o) (o_x_0 o) (o_model o) (o_eta o) (o_p_opt
  o) (o_theta_opt o) (o_x_min o) (o_x_max o) (o_y_min o) v (o_u_min o) (o_u_max o) (o_du_min o)
  (o_du_max o) (o_p_min o) (o_p_max o) (o_th_min o) (o_th_max o) (o_h o) (o_h_initial o)
  (o_h_final o) (o_g_eq o) (o_g_ineq o) (o_when_eq o) (o_when_ineq o) (o_L o) (o_V o) (o_S o)
  (o_last_u o) (o_y_guess o) (o_u_guess o) (o_positive o) (o_x_cost o).
Definition set_o_u_min v o := mkOcp (o_t_0 o) (o_t_f o) (o_x_0 o) (o_model o) (o_eta o) (o_p_opt
  o) (o_theta_opt o) (o_x_min o) (o_x_max o) (o_y_min o) (o_y_max o) v (o_u_max o) (o_du_min o)
  (o_du_max o) (o_p_min o) (o_p_max o) (o_th_min o) (o_th_max o) (o_h o) (o_h_initial o)
  (o_h_final o) (o_g_eq o) (o_g_ineq o) (o_when_eq o) (o_when_ineq o) (o_L o) (o_V o) (o_S o)
  (o_last_u o) (o_y_guess o) (o_u_guess o) (o_positive o) (o_x_cost o).
Definition set_o_u_max v o := mkOcp (o_t_0 o) (o_t_f o) (o_x_0 o) (o_model o) (o_eta o) (o_p_opt
  o) (o_theta_opt o) (o_x_min o) (o_x_max o) (o_y_min o) (o_y_max o) (o_u_min o) v (o_du_min o)
  (o_du_max o) (o_p_min o) (o_p_max o) (o_th_min o) (o_th_max o) (o_h o) (o_h_initial o)
  (o_h_final o) (o_g_eq o) (o_g_ineq o) (o_when_eq o) (o_when_ineq o) (o_L o) (o_V o) (o_S o)
  (o_last_u o) (o_y_guess o) (o_u_guess o) (o_positive o) (o_x_cost o).
Definition set_o_du_min v o := mkOcp (o_t_0 o) (o_t_f o) (o_x_0 o) (o_model o) (o_eta o) (o_p_opt
  o) (o_theta_opt o) (o_x_min o) (o_x_max o) (o_y_min o) (o_y_max o) (o_u_min o) (o_u_max o) v
  (o_du_max o) (o_p_min o) (o_p_max o) (o_th_min o) (o_th_max o) (o_h o) (o_h_initial o)
  (o_h_final o) (o_g_eq o) (o_g_ineq o) (o_when_eq o) (o_when_ineq o) (o_L o) (o_V o) (o_S o)
  (o_last_u o) (o_y_guess o) (o_u_guess o) (o_positive o) (o_x_cost o).
Definition set_o_du_max v o := mkOcp (o_t_0 o) (o_t_f o) (o_x_0 o) (o_model o) (o_eta o) (o_p_opt
  o) (o_theta_opt o) (o_x_min o) (o_x_max o) (o_y_min o) (o_y_max o) (o_u_min o) (o_u_max o)
  (o_du_min o) v (o_p_min o) (o_p_max o) (o_th_min o) (o_th_max o) (o_h o) (o_h_initial o)
  (o_h_final o) (o_g_eq o) (o_g_ineq o) (o_when_eq o) (o_when_ineq o) (o_L o) (o_V o) (o_S o)
  (o_last_u o) (o_y_guess o) (o_u_guess o) (o_positive o) (o_x_cost o).
Definition set_o_p_min v o := mkOcp (o_t_0 o) (o_t_f o) (o_x_0 o) (o_model o) (o_eta o) (o_p_opt
  o) (o_theta_opt o) (o_x_min o) (o_x_max o) (o_y_min o) (o_y_max o) (o_u_min o) (o_u_max o)
  (o_du_min o) (o_du_max o) v (o_p_max o) (o_th_min o) (o_th_max o) (o_h o) (o_h_initial o)
  (o_h_final o) (o_g_eq o) (o_g_ineq o) (o_when_eq o) (o_when_ineq o) (o_L o) (o_V o) (o_S o)
  (o_last_u o) (o_y_guess o) (o_u_guess o) (o_positive o) (o_x_cost o).
Definition set_o_p_max v o := mkOcp (o_t_0 o) (o_t_f o) (o_x_0 o) (o_model o) (o_eta o) (o_p_opt
  o) (o_theta_opt o) (o_x_min o) (o_x_max o) (o_y_min o) (o_y_max o) (o_u_min o) (o_u_max o)
  (o_du_min o) (o_du_max o) (o_p_min o) v (o_th_min o) (o_th_max o) (o_h o) (o_h_initial o)
  (o_h_final o) (o_g_eq o) (o_g_ineq o) (o_when_eq o) (o_when_ineq o) (o_L o) (o_V o) (o_S o)
  (o_last_u o) (o_y_guess o) (o_u_guess o) (o_positive o) (o_x_cost o).
Definition set_o_th_min v o := mkOcp (o_t_0 o) (o_t_f o) (o_x_0 o) (o_model o) (o_eta o) (o_p_opt
  o) (o_theta_opt o) (o_x_min o) (o_x_max o) (o_y_min o) (o_y_max o) (o_u_min o) (o_u_max o)
  (o_du_min o) (o_du_max o) (o_p_min o) (o_p_max o) v (o_th_max o) (o_h o) (o_h_initial o)
  (o_h_final o) (o_g_eq o) (o_g_ineq o) (o_when_eq o) (o_when_ineq o) (o_L o) (o_V o) (o_S o)
  (o_last_u o) (o_y_guess o) (o_u_guess o) (o_positive o) (o_x_cost o).
Definition set_o_th_max v o := mkOcp (o_t_0 o) (o_t_f o) (o_x_0 o) (o_model o) (o_eta o) (o_p_opt
  o) (o_theta_opt o) (o_x_min o) (o_x_max o) (o_y_min o) (o_y_max o) (o_u_min o) (o_u_max o)
  (o_du_min o) (o_du_max o) (o_p_min o) (o_p_max o) (o_th_min o) v (o_h o) (o_h_initial o)
  (o_h_final o) (o_g_eq o) (o_g_ineq o) (o_when_eq o) (o_when_ineq o) (o_L o) (o_V o) (o_S o)
  (o_last_u o) (o_y_guess o) (o_u_guess o) (o_positive o) (o_x_cost o).
Definition set_o_h v o := mkOcp (o_t_0 o) (o_t_f o) (o_x_0 o) (o_model o) (o_eta o) (o_p_opt o)
  (o_theta_opt o) (o_x_min o) (o_x_max o) (o_y_min o) (o_y_max o) (o_u_min o) (o_u_max o)
  (o_du_min o) (o_du_max o) (o_p_min o) (o_p_max o) (o_th_min o) (o_th_max o) v (o_h_initial o)
  (o_h_final o) (o_g_eq o) (o_g_ineq o) (o_when_eq o) (o_when_ineq o) (o_L o) (o_V o) (o_S o)
  (o_last_u o) (o_y_guess o) (o_u_guess o) (o_positive o) (o_x_cost o).
Definition set_o_h_initial v o := mkOcp (o_t_0 o) (o_t_f o) (o_x_0 o) (o_model o) (o_eta o)
  (o_p_opt o) (o_theta_opt o) (o_x_min o) (o_x_max o) (o_y_min o) (o_y_max o) (o_u_min o) (o_u_max
  o) (o_du_min o) (o_du_max o) (o_p_min o) (o_p_max o) (o_th_min o) (o_th_max o) (o_h o) v
  (o_h_final o) (o_g_eq o) (o_g_ineq o) (o_when_eq o) (o_when_ineq o) (o_L o) (o_V o) (o_S o)
  (o_last_u o) (o_y_guess o) (o_u_guess o) (o_positive o) (o_x_cost o).
Definition set_o_h_final v o := mkOcp (o_t_0 o) (o_t_f o) (o_x_0 o) (o_model o) (o_eta o) (o_p_opt
  o) (o_theta_opt o) (o_x_min o) (o_x_max o) (o_y_min o) (o_y_max o) (o_u_min o) (o_u_max o)
  (o_du_min o) (o_du_max o) (o_p_min o) (o_p_max o) (o_th_min o) (o_th_max o) (o_h o) (o_h_initial
  o) v (o_g_eq o) (o_g_ineq o) (o_when_eq o) (o_when_ineq o) (o_L o) (o_V o) (o_S o) (o_last_u o)
  (o_y_guess o) (o_u_guess o) (o_positive o) (o_x_cost o).
Definition set_o_g_eq v o := mkOcp (o_t_0 o) (o_t_f o) (o_x_0 o) (o_model o) (o_eta o) (o_p_opt o)
  (o_theta_opt o) (o_x_min o) (o_x_max o) (o_y_min o) (o_y_max o) (o_u_min o) (o_u_max o)
  (o_du_min o) (o_du_max o) (o_p_min o) (o_p_max o) (o_th_min o) (o_th_max o) (o_h o) (o_h_initial
  o) (o_h_final o) v (o_g_ineq o) (o_when_eq o) (o_when_ineq o) (o_L o) (o_V o) (o_S o) (o_last_u
  o) (o_y_guess o) (o_u_guess o) (o_positive o) (o_x_cost o).
Definition set_o_g_ineq v o := mkOcp (o_t_0 o) (o_t_f o) (o_x_0 o) (o_model o) (o_eta o) (o_p_opt
  o) (o_theta_opt o) (o_x_min o) (o_x_max o) (o_y_min o) (o_y_max o) (o_u_min o) (o_u_max o)
  (o_du_min o) (o_du_max o) (o_p_min o) (o_p_max o) (o_th_min o) (o_th_max o) (o_h o) (o_h_initial
  o) (o_h_final o) (o_g_eq o) v (o_when_eq o) (o_when_ineq o) (o_L o) (o_V o) (o_S o) (o_last_u o)
  (o_y_guess o) (o_u_guess o) (o_positive o) (o_x_cost o).
Definition set_o_when_eq v o := mkOcp (o_t_0 o) (o_t_f o) (o_x_0 o) (o_model o) (o_eta o) (o_p_opt
  o) (o_theta_opt o) (o_x_min o) (o_x_max o) (o_y_min o) (o_y_max o) (o_u_min o) (o_u_max o)
  (o_du_min o) (o_du_max o) (o_p_min o) (o_p_max o) (o_th_min o) (o_th_max o) (o_h o) (o_h_initial
  o) (o_h_final o) (o_g_eq o) (o_g_ineq o) v (o_when_ineq o) (o_L o) (o_V o) (o_S o) (o_last_u o)
  (o_y_guess o) (o_u_guess o) (o_positive o) (o_x_cost o).
Definition set_o_when_ineq v o := mkOcp (o_t_0 o) (o_t_f o) (o_x_0 o) (o_model o) (o_eta o)
  (o_p_opt o) (o_theta_opt o) (o_x_min o) (o_x_max o) (o_y_min o) (o_y_max o) (o_u_min o) (o_u_max
  o) (o_du_min o) (o_du_max o) (o_p_min o) (o_p_max o) (o_th_min o) (o_th_max o) (o_h o)
  (o_h_initial o) (o_h_final o) (o_g_eq o) (o_g_ineq o) (o_when_eq o) v (o_L o) (o_V o) (o_S o)
  (o_last_u o) (o_y_guess o) (o_u_guess o) (o_positive o) (o_x_cost o).
Definition set_o_L v o := mkOcp (o_t_0 o) (o_t_f o) (o_x_0 o) (o_model o) (o_eta o) (o_p_opt o)
  (o_theta_opt o) (o_x_min o) (o_x_max o) (o_y_min o) (o_y_max o) (o_u_min o) (o_u_max o)
  (o_du_min o) (o_du_max o) (o_p_min o) (o_p_max o) (o_th_min o) (o_th_max o) (o_h o) (o_h_initial
  o) (o_h_final o) (o_g_eq o) (o_g_ineq o) (o_when_eq o) (o_when_ineq o) v (o_V o) (o_S o)
  (o_last_u o) (o_y_guess o) (o_u_guess o) (o_positive o) (o_x_cost o).
Definition set_o_V v o := mkOcp (o_t_0 o) (o_t_f o) (o_x_0 o) (o_model o) (o_eta o) (o_p_opt o)
  (o_theta_opt o) (o_x_min o) (o_x_max o) (o_y_min o) (o_y_max o) (o_u_min o) (o_u_max o)
  (o_du_min o) (o_du_max o) (o_p_min o) (o_p_max o) (o_th_min o) (o_th_max o) (o_h o) (o_h_initial
  o) (o_h_final o) (o_g_eq o) (o_g_ineq o) (o_when_eq o) (o_when_ineq o) (o_L o) v (o_S o)
  (o_last_u o) (o_y_guess o) (o_u_guess o) (o_positive o) (o_x_cost o).
Definition set_o_S v o := mkOcp (o_t_0 o) (o_t_f o) (o_x_0 o) (o_model o) (o_eta o) (o_p_opt o)
  (o_theta_opt o) (o_x_min o) (o_x_max o) (o_y_min o) (o_y_max o) (o_u_min o) (o_u_max o)
  (o_du_min o) (o_du_max o) (o_p_min o) (o_p_max o) (o_th_min o) (o_th_max o) (o_h o) (o_h_initial
  o) (o_h_final o) (o_g_eq o) (o_g_ineq o) (o_when_eq o) (o_when_ineq o) (o_L o) (o_V o) v
  (o_last_u o) (o_y_guess o) (o_u_guess o) (o_positive o) (o_x_cost o).
Definition set_o_last_u v o := mkOcp (o_t_0 o) (o_t_f o) (o_x_0 o) (o_model o) (o_eta o) (o_p_opt
  o) (o_theta_opt o) (o_x_min o) (o_x_max o) (o_y_min o) (o_y_max o) (o_u_min o) (o_u_max o)
  (o_du_min o) (o_du_max o) (o_p_min o) (o_p_max o) (o_th_min o) (o_th_max o) (o_h o) (o_h_initial
  o) (o_h_final o) (o_g_eq o) (o_g_ineq o) (o_when_eq o) (o_when_ineq o) (o_L o) (o_V o) (o_S o) v
  (o_y_guess o) (o_u_guess o) (o_positive o) (o_x_cost o).
Definition set_o_y_guess v o := mkOcp (o_t_0 o) (o_t_f o) (o_x_0 o) (o_model o) (o_eta o) (o_p_opt
  o) (o_theta_opt o) (o_x_min o) (o_x_max o) (o_y_min o) (o_y_max o) (o_u_min o) (o_u_max o)
  (o_du_min o) (o_du_max o) (o_p_min o) (o_p_max o) (o_th_min o) (o_th_max o) (o_h o) (o_h_initial
  o) (o_h_final o) (o_g_eq o) (o_g_ineq o) (o_when_eq o) (o_when_ineq o) (o_L o) (o_V o) (o_S o)
  (o_last_u o) v (o_u_guess o) (o_positive o) (o_x_cost o).
Definition set_o_u_guess v o := mkOcp (o_t_0 o) (o_t_f o) (o_x_0 o) (o_model o) (o_eta o) (o_p_opt
  o) (o_theta_opt o) (o_x_min o) (o_x_max o) (o_y_min o) (o_y_max o) (o_u_min o) (o_u_max o)
  (o_du_min o) (o_du_max o) (o_p_min o) (o_p_max o) (o_th_min o) (o_th_max o) (o_h o) (o_h_initial
  o) (o_h_final o) (o_g_eq o) (o_g_ineq o) (o_when_eq o) (o_when_ineq o) (o_L o) (o_V o) (o_S o)
  (o_last_u o) (o_y_guess o) v (o_positive o) (o_x_cost o).
Definition set_o_positive v o := mkOcp (o_t_0 o) (o_t_f o) (o_x_0 o) (o_model o) (o_eta o)
  (o_p_opt o) (o_theta_opt o) (o_x_min o) (o_x_max o) (o_y_min o) (o_y_max o) (o_u_min o) (o_u_max
  o) (o_du_min o) (o_du_max o) (o_p_min o) (o_p_max o) (o_th_min o) (o_th_max o) (o_h o)
  (o_h_initial o) (o_h_final o) (o_g_eq o) (o_g_ineq o) (o_when_eq o) (o_when_ineq o) (o_L o) (o_V
  o) (o_S o) (o_last_u o) (o_y_guess o) (o_u_guess o) v (o_x_cost o).
Definition set_o_x_cost v o := mkOcp (o_t_0 o) (o_t_f o) (o_x_0 o) (o_model o) (o_eta o) (o_p_opt
  o) (o_theta_opt o) (o_x_min o) (o_x_max o) (o_y_min o) (o_y_max o) (o_u_min o) (o_u_max o)
  (o_du_min o) (o_du_max o) (o_p_min o) (o_p_max o) (o_th_min o) (o_th_max o) (o_h o) (o_h_initial
  o) (o_h_final o) (o_g_eq o) (o_g_ineq o) (o_when_eq o) (o_when_ineq o) (o_L o) (o_V o) (o_S o)
  (o_last_u o) (o_y_guess o) (o_u_guess o) (o_positive o) v.

(** Casadi's elementwise binary operation on two column vectors: equal sizes, or one
    of them a scalar. *)
Definition zip_vec (op : binop) (a b : list expr) : res (list expr) :=
  if (length a =? length b)%nat
  then Ok (map (fun ab => EBin op (fst ab) (snd ab)) (combine a b))
  else match a, b with
       | [x], _ => Ok (map (EBin op x) b)
       | _, [y] => Ok (map (fun x => EBin op x y) a)
       | _, _ => Raise CasadiError
       end.

(** [-DM.inf(n)] and [DM.inf(n)]. *)
Definition neg_inf (n : nat) : list ext := repeat NInf n.
Definition pos_inf (n : nat) : list ext := repeat PInf n.

(** ocp.py:66-138 [__init__] without keyword arguments; the model is copied. *)
Definition new_ocp (m : model) (x_0 : option (list Q)) (t_0 t_f : Q) : res ocp :=
  let n_x := length (m_x m) in
  let n_y := length (m_y m) in
  let n_u := length (m_u m) in
  match zip_vec OSub (map EVar (m_x m)) (map EVar (m_x_0 m)) with
  | Raise e => Raise e
  | Ok h =>
      Ok (mkOcp t_0 t_f (match x_0 with Some v => v | None => [] end) m [] [] []
            (neg_inf n_x) (pos_inf n_x) (neg_inf n_y) (pos_inf n_y)
            (neg_inf n_u) (pos_inf n_u) (neg_inf n_u) (pos_inf n_u) [] [] [] []
            [] h [] [] [] [] [] [EConst 0%Q] [EConst 0%Q] [EConst 0%Q] None None None false None)
  end.

(** Run a method of the model. *)
Definition on_model {A : Type} (c : cmd model A) : cmd ocp A :=
  fun o => match c (o_model o) with (m, r) => (set_o_model m o, r) end.

(** Lists of indices applied to a casadi vector. *)
Definition index_vec {A : Type} (v : list A) (idx : list nat) : res (list A) :=
  if forallb (fun i => (i <? length v)%nat) idx then Ok (gather v idx) else Raise CasadiError.

Definition remove_at {A : Type} (idx : list nat) (v : list A) : res (list A) :=
  remove_variables_from_vector_by_indices (map Z.of_nat idx) v.

(** ** States *)

(** A bound given to [include_state]: absent, a DM column, or a list. *)
Inductive bound_arg := BNone | BVec (v : list ext) | BList (l : list ext).

Definition is_size (q : Q) : option nat :=
  if (Z.eqb (Z.modulo (Qnum q) (Zpos (Qden q))) 0 && Z.leb 0 (Qnum q))%bool
  then Some (Z.to_nat (Z.div (Qnum q) (Zpos (Qden q)))) else None.

(** ocp.py:310-313 [DM( *x_min )] with the entries as separate arguments: one argument
    is a scalar, two are the numbers of rows and columns of a zero matrix.  Returns the
    number of columns and the entries. *)
Definition dm_of_args (l : list ext) : res (nat * list ext) :=
  match l with
  | [] => Ok (1, [])
  | [v] => Ok (1, [v])
  | [Fin r; Fin c] =>
      match is_size r, is_size c with
      | Some r, Some c => Ok (c, repeat (Fin 0%Q) (r * c))
      | _, _ => Raise NotImplementedErr
      end
  | _ => Raise NotImplementedErr
  end.
Definition state_bound (a : bound_arg) (default : list ext) : res (nat * list ext) :=
  match a with
  | BNone => Ok (1, default)
  | BVec v => Ok (1, v)
  | BList l => dm_of_args l
  end.

(** [vertcat(column, m)]: the numbers of columns must agree.  (Casadi accepts any
    matrix while the column is still empty; the model refuses it.) *)
Definition vertcat_cols (v : list ext) (m : nat * list ext) : res (list ext) :=
  if (fst m =? 1)%nat then Ok (v ++ snd m) else Raise CasadiError.

(** ocp.py:291-345 [include_state].  [x_0_sym] is the argument or the symbols created
    in its absence. *)
Definition ocp_include_state (var : list sym) (ode : option (list expr))
    (x_0 : option (list Q)) (x_min x_max : bound_arg) (h_initial : option (list expr))
    (x_0_sym : list sym) (suppress : bool) : cmd ocp unit :=
  let n := length var in
  cguard (fun _ => match x_0, h_initial with None, None => negb suppress | _, _ => false end)
         AnyException ;;;
  fun o =>
    match state_bound x_min (neg_inf n), state_bound x_max (pos_inf n) with
    | Ok lo, Ok hi =>
        (cguard (fun _ => negb (n =? length (snd hi))%nat) ValueError ;;;
         cguard (fun _ => negb (n =? length (snd lo))%nat) ValueError ;;;
         cguard (fun _ => match x_0 with Some v => negb (n =? length v)%nat | None => false end)
                ValueError ;;;
         on_model (include_state var ode x_0_sym) ;;;
         cmodify (fun o => set_o_x_0 (o_x_0 o ++ match x_0 with
                                                 | Some v => v
                                                 | None => repeat 0%Q n end) o) ;;;
         (match x_0, h_initial with
          | Some _, _ =>
              cset (fun o => match zip_vec OSub (map EVar x_0_sym) (map EVar var) with
                             | Ok h => Ok (o_h_initial o ++ h)
                             | Raise e => Raise e
                             end) set_o_h_initial
          | None, Some h => cmodify (fun o => set_o_h_initial (o_h_initial o ++ h) o)
          | None, None => cret tt
          end) ;;;
         cset (fun o => vertcat_cols (o_x_min o) lo) set_o_x_min ;;;
         cset (fun o => vertcat_cols (o_x_max o) hi) set_o_x_max) o
    | Raise e, _ => (o, Raise e)
    | _, Raise e => (o, Raise e)
    end.

(** ** Algebraic variables *)

Definition given (a : option (list ext)) (default : list ext) : list ext :=
  match a with Some v => v | None => default end.

(** ocp.py:347-386 [include_algebraic]; lists and columns are not distinguished. *)
Definition ocp_include_algebraic (var : list sym) (alg : option (list expr))
    (y_min y_max : option (list ext)) (y_guess : option (list Q)) : cmd ocp unit :=
  let n := length var in
  let lo := given y_min (neg_inf n) in
  let hi := given y_max (pos_inf n) in
  cguard (fun _ => negb (n =? length lo)%nat) ValueError ;;;
  cguard (fun _ => negb (n =? length hi)%nat) ValueError ;;;
  cmodify (fun o => match o_y_guess o with
                    | Some g => set_o_y_guess (Some (g ++ match y_guess with
                                                          | Some v => v
                                                          | None => repeat 0%Q n end)) o
                    | None => o
                    end) ;;;
  on_model (include_algebraic var alg) ;;;
  cmodify (fun o => set_o_y_min (o_y_min o ++ lo) o) ;;;
  cmodify (fun o => set_o_y_max (o_y_max o ++ hi) o).

(** ocp.py:587-598 [remove_algebraic]. *)
Definition ocp_remove_algebraic (same : expr -> expr -> bool) (var : list sym)
    (eq : option (list expr)) : cmd ocp unit :=
  fun o =>
    let to_remove := rev (find_syms var (m_y (o_model o))) in
    (cset (fun o => remove_at to_remove (o_y_max o)) set_o_y_max ;;;
     cset (fun o => remove_at to_remove (o_y_min o)) set_o_y_min ;;;
     (match o_y_guess o with
      | Some g => cset (fun _ => match remove_at to_remove g with
                                 | Ok v => Ok (Some v)
                                 | Raise e => Raise e end) set_o_y_guess
      | None => cret tt
      end) ;;;
     on_model (remove_algebraic same var eq)) o.

(** ** Controls *)

(** ocp.py:434-441: a scalar given for a vector is repeated. *)
Definition broadcast (a : list ext) (n : nat) : list ext :=
  match a with [v] => if (1 <? n)%nat then repeat v n else a | _ => a end.

(** ocp.py:388-487 [include_control]. *)
Definition ocp_include_control (var : list sym) (u_min u_max du_min du_max : option (list ext))
    (u_guess : option (list Q)) : cmd ocp unit :=
  let n := length var in
  let lo := broadcast (given u_min (neg_inf n)) n in
  let hi := broadcast (given u_max (pos_inf n)) n in
  let dlo := broadcast (given du_min (neg_inf n)) n in
  let dhi := broadcast (given du_max (pos_inf n)) n in
  cguard (fun o => match u_guess, o_u_guess o with None, Some _ => true | _, _ => false end)
         ValueError ;;;
  cguard (fun _ => negb (n =? length lo)%nat) ValueError ;;;
  cguard (fun _ => negb (n =? length hi)%nat) ValueError ;;;
  cguard (fun _ => negb (n =? length dlo)%nat) ValueError ;;;
  cguard (fun _ => negb (n =? length dhi)%nat) ValueError ;;;
  cguard (fun _ => match u_guess with Some g => negb (n =? length g)%nat | None => false end)
         ValueError ;;;
  cmodify (fun o => set_o_u_min (o_u_min o ++ lo) o) ;;;
  cmodify (fun o => set_o_u_max (o_u_max o ++ hi) o) ;;;
  cmodify (fun o => set_o_du_min (o_du_min o ++ dlo) o) ;;;
  cmodify (fun o => set_o_du_max (o_du_max o ++ dhi) o) ;;;
  cmodify (fun o => match u_guess with
                    | Some g =>
                        if (length (m_u (o_model o)) =? 0)%nat then set_o_u_guess (Some g) o
                        else match o_u_guess o with
                             | Some g' => set_o_u_guess (Some (g' ++ g)) o
                             | None => o
                             end
                    | None => o
                    end) ;;;
  on_model (include_control var).

(** ocp.py:600-617 [remove_control]. *)
Definition ocp_remove_control (var : list sym) : cmd ocp unit :=
  fun o =>
    let to_remove := find_syms var (m_u (o_model o)) in
    (cset (fun o => remove_at to_remove (o_u_max o)) set_o_u_max ;;;
     cset (fun o => remove_at to_remove (o_u_min o)) set_o_u_min ;;;
     cset (fun o => remove_at to_remove (o_du_max o)) set_o_du_max ;;;
     cset (fun o => remove_at to_remove (o_du_min o)) set_o_du_min ;;;
     (match o_u_guess o with
      | Some g => cset (fun _ => match remove_at to_remove g with
                                 | Ok v => Ok (Some v)
                                 | Raise e => Raise e end) set_o_u_guess
      | None => cret tt
      end) ;;;
     on_model (remove_control var)) o.

(** ** Parameters *)

(** ocp.py:902-934 [set_parameter_as_optimization_parameter]. *)
Definition set_p_opt (new : list sym) (lo hi : option (list ext)) : cmd ocp unit :=
  let n := length new in
  let lo := given lo (neg_inf n) in
  let hi := given hi (pos_inf n) in
  cguard (fun _ => negb (n =? length hi)%nat) ValueError ;;;
  cguard (fun _ => negb (n =? length lo)%nat) ValueError ;;;
  cmodify (fun o => set_o_p_opt (o_p_opt o ++ new) o) ;;;
  cmodify (fun o => set_o_p_min (o_p_min o ++ lo) o) ;;;
  cmodify (fun o => set_o_p_max (o_p_max o ++ hi) o).

(** ocp.py:936-967 [set_theta_as_optimization_theta]. *)
Definition set_th_opt (new : list sym) (lo hi : option (list ext)) : cmd ocp unit :=
  let n := length new in
  let lo := given lo (neg_inf n) in
  let hi := given hi (pos_inf n) in
  cguard (fun _ => negb (n =? length hi)%nat) ValueError ;;;
  cguard (fun _ => negb (n =? length lo)%nat) ValueError ;;;
  cmodify (fun o => set_o_theta_opt (o_theta_opt o ++ new) o) ;;;
  cmodify (fun o => set_o_th_min (o_th_min o ++ lo) o) ;;;
  cmodify (fun o => set_o_th_max (o_th_max o ++ hi) o).

(** ocp.py:244-255, 495-504: [create_] and [include_optimization_parameter]; the
    created symbols are an argument.  Likewise 257-268, 506-517 for theta. *)
Definition include_p_opt (var : list sym) (lo hi : option (list ext)) : cmd ocp unit :=
  on_model (include_parameter var) ;;; set_p_opt var lo hi.
Definition include_th_opt (var : list sym) (lo hi : option (list ext)) : cmd ocp unit :=
  on_model (include_theta var) ;;; set_th_opt var lo hi.

(** ocp.py:969-973. *)
Definition get_p_opt_indices (o : ocp) : list nat := find_syms (o_p_opt o) (m_p (o_model o)).
Definition get_theta_opt_indices (o : ocp) : list nat :=
  find_syms (o_theta_opt o) (m_theta (o_model o)).

(** ** Constraints *)

(** ocp.py:519-539, 577-585. *)
Definition include_initial_time_equality (eq : list expr) : cmd ocp unit :=
  cmodify (fun o => set_o_h_initial (o_h_initial o ++ eq) o).
Definition include_final_time_equality (eq : list expr) : cmd ocp unit :=
  cmodify (fun o => set_o_h_final (o_h_final o ++ eq) o).
Definition include_equality (eq : list expr) : cmd ocp unit :=
  cmodify (fun o => set_o_h (o_h o ++ eq) o).
(** ocp.py:541-575. *)
Definition include_time_inequality (eq : list expr) (w : string) : cmd ocp unit :=
  cmodify (fun o => set_o_g_ineq (o_g_ineq o ++ eq) o) ;;;
  cmodify (fun o => set_o_when_ineq (o_when_ineq o ++ repeat w (length eq)) o).
Definition include_time_equality (eq : list expr) (w : string) : cmd ocp unit :=
  cmodify (fun o => set_o_g_eq (o_g_eq o ++ eq) o) ;;;
  cmodify (fun o => set_o_when_eq (o_when_eq o ++ repeat w (length eq)) o).

(** ocp.py:619-652 [replace_variable]. *)
Definition ocp_replace_variable (original : list sym) (replacement : list expr) : cmd ocp unit :=
  let sub := fun es => subst_vec es original replacement in
  cguard (fun _ => negb (length original =? length replacement)%nat) ValueError ;;;
  cmodify (fun o => set_o_L (sub (o_L o)) o) ;;;
  cmodify (fun o => set_o_V (sub (o_V o)) o) ;;;
  cmodify (fun o => set_o_S (sub (o_S o)) o) ;;;
  cmodify (fun o => set_o_h_initial (sub (o_h_initial o)) o) ;;;
  cmodify (fun o => set_o_h_final (sub (o_h_final o)) o) ;;;
  cmodify (fun o => set_o_g_ineq (sub (o_g_ineq o)) o) ;;;
  cmodify (fun o => set_o_g_eq (sub (o_g_eq o)) o) ;;;
  cmodify (fun o => set_o_h (sub (o_h o)) o) ;;;
  on_model (replace_variable original replacement).

(** ocp.py:654-662 [parametrize_control]. *)
Definition ocp_parametrize_control (u : list sym) (e : list expr) (u_par : option (list sym))
  : cmd ocp unit :=
  on_model (parametrize_control u e u_par) ;;; ocp_replace_variable u e.

(** ocp.py:768-779 [create_cost_state]; [x_c] and [x_c0] are the created symbols. *)
Definition create_cost_state (x_c x_c0 : sym) : cmd ocp unit :=
  fun o =>
    (ocp_include_state [x_c] (Some (o_L o)) (Some [0%Q])
       (BVec [if o_positive o then Fin 0%Q else NInf]) BNone None [x_c0] false ;;;
     cmodify (set_o_x_cost (Some [x_c]))) o.

(** ** Merging *)

(** The rule for guesses and last controls (ocp.py:861-891). *)
Definition merge_guess (mine : option (list Q)) (n : nat) (other : option (list Q))
  : option (list Q) :=
  match mine, other with
  | None, Some g => if (n =? 0)%nat then Some g else None
  | Some a, Some b => Some (a ++ b)
  | _, None => None
  end.

(** ocp.py:815-900: one iteration of [merge]. *)
Definition merge_problem (q : ocp) : cmd ocp unit :=
  cguard (fun o => negb (Qeq_bool (o_t_0 o) (o_t_0 q))) ValueError ;;;
  cguard (fun o => negb (Qeq_bool (o_t_f o) (o_t_f q))) ValueError ;;;
  cmodify (fun o => set_o_x_0 (o_x_0 o ++ o_x_0 q) o) ;;;
  cmodify (fun o => set_o_eta (o_eta o ++ o_eta q) o) ;;;
  cmodify (fun o => set_o_p_opt (o_p_opt o ++ o_p_opt q) o) ;;;
  cmodify (fun o => set_o_theta_opt (o_theta_opt o ++ o_theta_opt q) o) ;;;
  cmodify (fun o => set_o_x_max (o_x_max o ++ o_x_max q) o) ;;;
  cmodify (fun o => set_o_y_max (o_y_max o ++ o_y_max q) o) ;;;
  cmodify (fun o => set_o_u_max (o_u_max o ++ o_u_max q) o) ;;;
  cmodify (fun o => set_o_du_max (o_du_max o ++ o_du_max q) o) ;;;
  cmodify (fun o => set_o_p_max (o_p_max o ++ o_p_max q) o) ;;;
  cmodify (fun o => set_o_th_max (o_th_max o ++ o_th_max q) o) ;;;
  cmodify (fun o => set_o_x_min (o_x_min o ++ o_x_min q) o) ;;;
  cmodify (fun o => set_o_y_min (o_y_min o ++ o_y_min q) o) ;;;
  cmodify (fun o => set_o_u_min (o_u_min o ++ o_u_min q) o) ;;;
  cmodify (fun o => set_o_du_min (o_du_min o ++ o_du_min q) o) ;;;
  cmodify (fun o => set_o_p_min (o_p_min o ++ o_p_min q) o) ;;;
  cmodify (fun o => set_o_th_min (o_th_min o ++ o_th_min q) o) ;;;
  cmodify (fun o => set_o_h (o_h o ++ o_h q) o) ;;;
  cmodify (fun o => set_o_h_initial (o_h_initial o ++ o_h_initial q) o) ;;;
  cmodify (fun o => set_o_h_final (o_h_final o ++ o_h_final q) o) ;;;
  cmodify (fun o => set_o_g_eq (o_g_eq o ++ o_g_eq q) o) ;;;
  cmodify (fun o => set_o_g_ineq (o_g_ineq o ++ o_g_ineq q) o) ;;;
  cmodify (fun o => set_o_when_eq (o_when_eq o ++ o_when_eq q) o) ;;;
  cmodify (fun o => set_o_when_ineq (o_when_ineq o ++ o_when_ineq q) o) ;;;
  cset (fun o => zip_vec OAdd (o_L o) (o_L q)) set_o_L ;;;
  cset (fun o => zip_vec OAdd (o_V o) (o_V q)) set_o_V ;;;
  cset (fun o => zip_vec OAdd (o_S o) (o_S q)) set_o_S ;;;
  cmodify (fun o => set_o_last_u
     (merge_guess (o_last_u o) (length (m_u (o_model o))) (o_last_u q)) o) ;;;
  cmodify (fun o => set_o_y_guess
     (merge_guess (o_y_guess o) (length (m_y (o_model o))) (o_y_guess q)) o) ;;;
  cmodify (fun o => set_o_u_guess
     (merge_guess (o_u_guess o) (length (m_u (o_model o))) (o_u_guess q)) o) ;;;
  cmodify (fun o => set_o_positive (o_positive o && o_positive q) o) ;;;
  on_model (merge [o_model q] None).

(** ocp.py:810-900 [merge]. *)
Definition ocp_merge (problems : list ocp) : cmd ocp unit :=
  fun o => run_all merge_problem problems o.

(** ** Connecting *)

(** ocp.py:975-1025 [connect]; [y] may be any expressions. *)
Definition ocp_connect (u : list sym) (y : list expr) (replace : bool) : cmd ocp unit :=
  cguard (fun _ => negb (length u =? length y)%nat) ValueError ;;;
  fun o =>
    let ind_u := find_syms u (m_u (o_model o)) in
    (on_model (connect u y replace) ;;;
     (if replace then cret tt
      else
        (match o_u_guess o, o_y_guess o with
         | Some gu, Some gy =>
             cset (fun _ => match index_vec gu ind_u with
                            | Ok v => Ok (Some (gy ++ v))
                            | Raise e => Raise e end) set_o_y_guess
         | _, _ => cret tt
         end) ;;;
        cset (fun o => match index_vec (o_u_max o) ind_u with
                       | Ok v => Ok (o_y_max o ++ v)
                       | Raise e => Raise e end) set_o_y_max ;;;
        cset (fun o => match index_vec (o_u_min o) ind_u with
                       | Ok v => Ok (o_y_min o ++ v)
                       | Raise e => Raise e end) set_o_y_min) ;;;
     cset (fun o => remove_at ind_u (o_u_max o)) set_o_u_max ;;;
     cset (fun o => remove_at ind_u (o_u_min o)) set_o_u_min ;;;
     (match o_u_guess o with
      | Some g => cset (fun _ => match remove_at ind_u g with
                                 | Ok v => Ok (Some v)
                                 | Raise e => Raise e end) set_o_u_guess
      | None => cret tt
      end) ;;;
     cset (fun o => remove_at ind_u (o_du_max o)) set_o_du_max ;;;
     cset (fun o => remove_at ind_u (o_du_min o)) set_o_du_min) o.

(** ** Checks *)

(** ocp.py:168-178 [has_delta_u]. *)
Definition has_delta_u (o : ocp) : res bool :=
  let n := length (m_u (o_model o)) in
  if ((length (o_du_max o) <? n)%nat || (length (o_du_min o) <? n)%nat)%bool
  then Raise CasadiError
  else Ok (existsb (fun i => match nth_error (o_du_max o) i, nth_error (o_du_min o) i with
                             | Some PInf, Some NInf => false
                             | _, _ => true
                             end) (seq 0 n)).

(** ocp.py:698-763 [pre_solve_check]; the conversions of [_fix_types] do not change
    the vectors. *)
Definition pre_solve_check (o : ocp) : res unit :=
  let m := o_model o in
  let sizes :=
    [(length (o_x_0 o), length (m_x m)); (length (o_x_max o), length (m_x m));
     (length (o_y_max o), length (m_y m)); (length (o_u_max o), length (m_u m));
     (length (o_x_min o), length (m_x m)); (length (o_y_min o), length (m_y m));
     (length (o_u_min o), length (m_u m)); (length (o_du_max o), length (m_u m));
     (length (o_du_min o), length (m_u m));
     (length (o_p_max o), length (o_p_opt o)); (length (o_p_min o), length (o_p_opt o));
     (length (o_th_min o), length (o_theta_opt o)); (length (o_th_max o), length (o_theta_opt o))] in
  if negb (length (o_L o) =? 1)%nat then Raise AnyException
  else if negb (length (o_V o) =? 1)%nat then Raise AnyException
  else if existsb (fun ab => negb (fst ab =? snd ab)%nat) sizes then Raise AnyException
  else Ok tt.

(** ** Simulation *)

(** ocp.py:1043-1050: the end times of the elements.  [t_f] is absent, a number or a
    list. *)
Inductive end_arg := TNone | TNum (q : Q) | TList (l : list Q).
Definition ocp_end_times (o : ocp) (t_f : end_arg) (t_0 : option Q) (finite_elements : option nat)
  : res (list Q) :=
  let t_0 := match t_0 with Some q => q | None => o_t_0 o end in
  let t_f := match t_f with TNone => TNum (o_t_f o) | a => a end in
  match finite_elements, t_f with
  | Some n, TNum q =>
      match n with
      | O => Raise ZeroDivisionErr
      | _ => let delta_t := ((q - t_0) / inject_Z (Z.of_nat n))%Q in
             Ok (map (fun t => (delta_t * inject_Z (Z.of_nat t))%Q) (seq 1 (n - 1)))
      end
  | _, TNum q => Ok [q]
  | _, TList l => Ok l
  | _, TNone => Ok [o_t_f o]
  end.

(** ocp.py:1027-1064 [simulate].  The parameters [p] are empty when absent. *)
Definition ocp_simulate (integrate : icall -> res (list Q * list Q)) (defaults : options)
    (F : nat -> Q -> Q) (o : ocp) (x_0 : option (list Q)) (t_f : end_arg) (t_0 : option Q)
    (finite_elements : option nat) (u : control_arg) (p : list Q)
    (theta : option (dict nat (list Q))) (y_0 : option (list Q)) (ty : option string)
    (user : options) : res sim :=
  match pre_solve_check o with
  | Raise e => Raise e
  | Ok _ =>
      match ocp_end_times o t_f t_0 finite_elements with
      | Raise e => Raise e
      | Ok times =>
          simulate integrate defaults F (o_model o)
            (match x_0 with Some v => v | None => o_x_0 o end) times (o_t_0 o)
            (match u with
             | UNone => match o_u_guess o with Some g => UVec g | None => UNone end
             | a => a end) p theta
            (match y_0 with Some v => Some v | None => o_y_guess o end)
            (match ty with Some s => s | None => "implicit"%string end) user
      end
  end.

(** ** The calls a user can make on a problem *)
Inductive ocp_op : Type :=
| PIncludeState (var : list sym) (ode : option (list expr)) (x_0 : option (list Q))
                (x_min x_max : bound_arg) (h_initial : option (list expr))
                (x_0_sym : list sym) (suppress : bool)
| PIncludeAlgebraic (var : list sym) (alg : option (list expr)) (y_min y_max : option (list ext))
                    (y_guess : option (list Q))
| PIncludeControl (var : list sym) (u_min u_max du_min du_max : option (list ext))
                  (u_guess : option (list Q))
| PRemoveAlgebraic (var : list sym) (eq : option (list expr))
| PRemoveControl (var : list sym)
| PIncludeEquations (args : list eqn) (f : option (list expr)) (x : option (list sym))
                    (alg : option (list expr))
| PIncludeParameter (p : list sym)
| PIncludeTheta (th : list sym)
| PSetPOpt (new : list sym) (lo hi : option (list ext))
| PSetThOpt (new : list sym) (lo hi : option (list ext))
| PIncludePOpt (new : list sym) (lo hi : option (list ext))
| PIncludeThOpt (new : list sym) (lo hi : option (list ext))
| PInitialEquality (eq : list expr)
| PFinalEquality (eq : list expr)
| PEquality (eq : list expr)
| PTimeInequality (eq : list expr) (w : string)
| PTimeEquality (eq : list expr) (w : string)
| PReplaceVariable (original : list sym) (replacement : list expr)
| PParametrizeControl (u : list sym) (e : list expr) (u_par : option (list sym))
| PCreateCostState (x_c x_c0 : sym)
| PMerge (problems : list ocp)
| PConnect (u : list sym) (y : list expr) (replace : bool).

Definition ocp_step (same : expr -> expr -> bool) (op : ocp_op) : cmd ocp unit :=
  match op with
  | PIncludeState var ode x_0 lo hi h s b => ocp_include_state var ode x_0 lo hi h s b
  | PIncludeAlgebraic var alg lo hi g => ocp_include_algebraic var alg lo hi g
  | PIncludeControl var a b c d g => ocp_include_control var a b c d g
  | PRemoveAlgebraic var eq => ocp_remove_algebraic same var eq
  | PRemoveControl var => ocp_remove_control var
  | PIncludeEquations args f x alg => on_model (include_equations args f x alg)
  | PIncludeParameter p => on_model (include_parameter p)
  | PIncludeTheta th => on_model (include_theta th)
  | PSetPOpt new lo hi => set_p_opt new lo hi
  | PSetThOpt new lo hi => set_th_opt new lo hi
  | PIncludePOpt new lo hi => include_p_opt new lo hi
  | PIncludeThOpt new lo hi => include_th_opt new lo hi
  | PInitialEquality eq => include_initial_time_equality eq
  | PFinalEquality eq => include_final_time_equality eq
  | PEquality eq => include_equality eq
  | PTimeInequality eq w => include_time_inequality eq w
  | PTimeEquality eq w => include_time_equality eq w
  | PReplaceVariable a b => ocp_replace_variable a b
  | PParametrizeControl u e v => ocp_parametrize_control u e v
  | PCreateCostState x_c x_c0 => create_cost_state x_c x_c0
  | PMerge problems => ocp_merge problems
  | PConnect u y r => ocp_connect u y r
  end.

(** ** Quadratic costs *)

(** A weight matrix as its rows. *)
Definition weights := list (list Q).
Definition esum (l : list expr) : expr := fold_right (EBin OAdd) (EConst 0%Q) l.

(** ocp.py:791-808 [mtimes(mtimes(v.T, W), v)] for a square or scalar (one by one)
    [W].  For other shapes casadi raises, or returns a matrix that is not a valid cost;
    the model refuses them. *)
Definition quadratic_form (v : list expr) (W : weights) : res expr :=
  match W with
  | [[w]] => Ok (esum (map (fun e => EBin OMul (EBin OMul e (EConst w)) e) v))
  | _ =>
      if (length W =? length v)%nat && forallb (fun row => (length row =? length v)%nat) W
      then Ok (esum (map (fun j =>
             EBin OMul (esum (map (fun er => EBin OMul (fst er) (EConst (nth j (snd er) 0%Q)))
                                  (combine v W)))
                       (nth j v (EConst 0%Q))) (seq 0 (length v))))
      else Raise CasadiError
  end.

(** ocp.py:781-808 [create_quadratic_cost].  The dictionary becomes one optional
    argument per key; the defaults it adds to the dictionary of the caller are not
    modelled. *)
Definition add_form (v : res (list expr)) (W : option weights) (acc : expr) : res expr :=
  match W with
  | None => Ok acc
  | Some W => match v with
              | Raise e => Raise e
              | Ok v => match quadratic_form v W with
                        | Raise e => Raise e
                        | Ok f => Ok (EBin OAdd acc f)
                        end
              end
  end.
Definition create_quadratic_cost (x_ref u_ref : option (list Q)) (Wq Wr Wqv Wrv : option weights)
  : cmd ocp unit :=
  fun o =>
    let x := map EVar (m_x (o_model o)) in
    let u := map EVar (m_u (o_model o)) in
    let xr := match x_ref with Some v => v | None => repeat 0%Q (length x) end in
    let ur := match u_ref with Some v => v | None => repeat 0%Q (length u) end in
    let dx := zip_vec OSub x (map EConst xr) in
    let du := zip_vec OSub u (map EConst ur) in
    (cmodify (set_o_L [EConst 0%Q]) ;;; cmodify (set_o_V [EConst 0%Q]) ;;;
     cset (fun o => match add_form dx Wq (EConst 0%Q) with
                    | Ok e => Ok [e] | Raise e => Raise e end) set_o_L ;;;
     cset (fun o => match o_L o with
                    | [acc] => match add_form du Wr acc with
                               | Ok e => Ok [e] | Raise e => Raise e end
                    | l => Ok l end) set_o_L ;;;
     cset (fun o => match add_form dx Wqv (EConst 0%Q) with
                    | Ok e => Ok [e] | Raise e => Raise e end) set_o_V ;;;
     cset (fun o => match o_V o with
                    | [acc] => match add_form (Ok x) Wrv acc with
                               | Ok e => Ok [e] | Raise e => Raise e end
                    | l => Ok l end) set_o_V) o.
