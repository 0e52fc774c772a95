(** GENERATED by tools/gen_lextable.py from sources/dfmc/reader/lexer-transitions.dylan:18-640.  Each state of
    the source is one constructor, with its fragment builder, its action if it is a
    conditionally-accepting-state, and its transitions in the order of the source.  Transition strings are
    kept as they are (as codes), including their ranges. *)
From Coq Require Import ZArith List.
Import ListNotations.
Local Open Scope Z_scope.

Inductive lstate :=
  | S_not_allowed
  | S_start
  | S_whitespace
  | S_slash
  | S_single_line_comment
  | S_single_line_comment_cr
  | S_single_line_comment_end
  | S_delimited_comment_start
  | S_delimited_comment_slash
  | S_delimited_comment_slash_slash
  | S_delimited_comment_star
  | S_delimited_comment_body
  | S_delimited_comment_end
  | S_sharp
  | S_sharp_paren
  | S_sharp_bracket
  | S_sharp_brace
  | S_sharp_sharp
  | S_sharp_colon
  | S_sharp_colon_alphabetic
  | S_sharp_colon_non_alphabetic
  | S_sharp_colon_1alpha
  | S_sharp_colon_done
  | S_true
  | S_false
  | S_sharp_n
  | S_sharp_ne
  | S_sharp_nex
  | S_sharp_next
  | S_sharp_r
  | S_sharp_re
  | S_sharp_res
  | S_sharp_rest
  | S_sharp_k
  | S_sharp_ke
  | S_sharp_key
  | S_sharp_a
  | S_sharp_al
  | S_sharp_all
  | S_sharp_all_minus
  | S_sharp_all_k
  | S_sharp_all_ke
  | S_sharp_all_key
  | S_sharp_all_keys
  | S_sharp_b
  | S_binary_integer
  | S_binary_integer_underscore
  | S_sharp_o
  | S_octal_integer
  | S_octal_integer_underscore
  | S_sharp_x
  | S_hex_integer
  | S_hex_integer_underscore
  | S_lparen
  | S_rparen
  | S_comma
  | S_dot
  | S_dot_dot
  | S_ellipsis
  | S_semicolon
  | S_colon
  | S_colon_equal
  | S_double_colon
  | S_lbracket
  | S_rbracket
  | S_lbrace
  | S_rbrace
  | S_minus
  | S_equal
  | S_double_equal
  | S_arrow
  | S_question
  | S_double_question
  | S_question_equal
  | S_question_at
  | S_backslash
  | S_backslash_dot
  | S_backslash_dot_dot
  | S_backslash_ellipsis
  | S_backslash_question
  | S_backslash_sharp
  | S_backslash_sharp_n
  | S_backslash_sharp_ne
  | S_backslash_sharp_nex
  | S_backslash_sharp_next
  | S_backslash_sharp_r
  | S_backslash_sharp_re
  | S_backslash_sharp_res
  | S_backslash_sharp_rest
  | S_backslash_sharp_k
  | S_backslash_sharp_ke
  | S_backslash_sharp_key
  | S_backslash_sharp_a
  | S_backslash_sharp_al
  | S_backslash_sharp_all
  | S_backslash_sharp_all_minus
  | S_backslash_sharp_all_k
  | S_backslash_sharp_all_ke
  | S_backslash_sharp_all_key
  | S_backslash_sharp_all_keys
  | S_backslash_double_question
  | S_backslash_question_equal
  | S_backslash_percent
  | S_backslash_done
  | S_backslash_tilde
  | S_backslash_tilde_equal
  | S_backslash_colon
  | S_backslash_colon_colon
  | S_backslash_graphic
  | S_backslash_graphic_done
  | S_backslash_graphic_pre_equal
  | S_backslash_symbol
  | S_backslash_digit
  | S_backslash_digit_alpha
  | S_plus
  | S_tilde
  | S_tilde_equal
  | S_tilde_equal_equal
  | S_operator_graphic
  | S_operator_graphic_pre_equal
  | S_leading_graphic
  | S_leading_dollar
  | S_history_or_leading_graphic
  | S_leading_underscore
  | S_symbol
  | S_colon_keyword
  | S_cname_binop
  | S_cname_graphic_binop
  | S_cname_tilde
  | S_cname_tilde_equal
  | S_cname_tilde_double_equal
  | S_cname_angle
  | S_cname_angle_equal
  | S_cname_equal
  | S_cname_colon
  | S_cname_leading_numeric
  | S_cname_numeric_alpha
  | S_cname_leading_graphic
  | S_cname
  | S_colon_qname
  | S_qname_binop
  | S_qname_graphic_binop
  | S_qname_tilde
  | S_qname_tilde_equal
  | S_qname_tilde_double_equal
  | S_qname_angle
  | S_qname_angle_equal
  | S_qname_equal
  | S_qname_colon
  | S_qname_leading_numeric
  | S_qname_numeric_alpha
  | S_qname_leading_graphic
  | S_qname
  | S_quote
  | S_quote_escape
  | S_quote_escape_less
  | S_quote_hex_char_digits
  | S_quote_char
  | S_character
  | S_string_start
  | S_2_double_quotes
  | S_drm_string_body
  | S_drm_string_end
  | S_drm_string_escape
  | S_drm_string_escape_less
  | S_drm_string_hex_char_digits
  | S_multi_string_start
  | S_multi_string_body
  | S_multi_string_body_continue
  | S_multi_string_end
  | S_multi_string_escape
  | S_multi_string_escape_less
  | S_multi_string_hex_char_digits
  | S_raw_string_start
  | S_raw_2_double_quotes
  | S_raw_one_line_string_body
  | S_raw_one_line_string_end
  | S_raw_multi_string_start
  | S_raw_multi_string_body
  | S_raw_multi_string_body_continue
  | S_raw_multi_string_end
  | S_decimal
  | S_decimal_underscore
  | S_decimal_slash
  | S_numeric_alpha
  | S_leading_numeric
  | S_ratio
  | S_signed_decimal
  | S_signed_decimal_underscore
  | S_signed_decimal_slash
  | S_signed_ratio
  | S_decimal_dot
  | S_decimal_dot_decimal
  | S_decimal_dot_decimal_underscore
  | S_fp_e
  | S_fp_e_sign
  | S_fp_exp
  | S_fp_exp_underscore
  | S_decimal_e
  | S_decimal_exp
  | S_decimal_e_sign
.

(** What a state builds when it accepts. *)
Inductive builder :=
  | B_whitespace
  | B_make_binary_operator
  | B_comment
  | B_hash_lparen_fragment
  | B_hash_lbracket_fragment
  | B_hash_lbrace_fragment
  | B_hash_hash_fragment
  | B_make_hash_literal
  | B_true_fragment
  | B_false_fragment
  | B_hash_next_fragment
  | B_hash_rest_fragment
  | B_hash_key_fragment
  | B_hash_all_keys_fragment
  | B_parse_integer_literal
  | B_lparen_fragment
  | B_rparen_fragment
  | B_comma_fragment
  | B_dot_fragment
  | B_ellipsis_fragment
  | B_semicolon_fragment
  | B_colon_colon_fragment
  | B_lbracket_fragment
  | B_rbracket_fragment
  | B_lbrace_fragment
  | B_rbrace_fragment
  | B_make_minus
  | B_make_equal
  | B_make_double_equal
  | B_equal_greater_fragment
  | B_query_fragment
  | B_query_query_fragment
  | B_query_equal_fragment
  | B_query_at_fragment
  | B_make_escaped_ellipsis
  | B_make_escaped_query
  | B_make_escaped_hash_next_fragment
  | B_make_escaped_hash_rest_fragment
  | B_make_escaped_hash_key_fragment
  | B_make_escaped_hash_all_keys_fragment
  | B_make_escaped_query_query
  | B_make_escaped_query_equal
  | B_make_quoted_name
  | B_make_escaped_colon_colon
  | B_make_tilde
  | B_make_history_name
  | B_make_identifier
  | B_make_keyword_symbol
  | B_make_constrained_name
  | B_make_qualified_name
  | B_make_character_literal
  | B_make_stringish_literal
  | B_make_raw_string_literal
  | B_parse_ratio_literal
  | B_parse_fp_literal
.

(** The action functions, lexer.dylan:1064-1109. *)
Inductive action :=
  | A_increment_delimited_comment_start_count
  | A_increment_delimited_comment_end_count
  | A_increment_double_quote_start_count
  | A_reset_double_quote_end_count
  | A_increment_double_quote_end_count
.

(** What a transition is on: a character, a string (with ranges), or #"otherwise". *)
Inductive on := OnChar (c : Z) | OnString (s : list Z) | OnOtherwise.

Definition state_builder (s : lstate) : option builder :=
  match s with
  | S_whitespace => Some B_whitespace (* 52 *)
  | S_slash => Some B_make_binary_operator (* 54 *)
  | S_single_line_comment_cr => Some B_comment (* 64 *)
  | S_single_line_comment_end => Some B_comment (* 66 *)
  | S_delimited_comment_end => Some B_comment (* 89 *)
  | S_sharp_paren => Some B_hash_lparen_fragment (* 109 *)
  | S_sharp_bracket => Some B_hash_lbracket_fragment (* 110 *)
  | S_sharp_brace => Some B_hash_lbrace_fragment (* 111 *)
  | S_sharp_sharp => Some B_hash_hash_fragment (* 112 *)
  | S_sharp_colon_done => Some B_make_hash_literal (* 126 *)
  | S_true => Some B_true_fragment (* 128 *)
  | S_false => Some B_false_fragment (* 129 *)
  | S_sharp_next => Some B_hash_next_fragment (* 133 *)
  | S_sharp_rest => Some B_hash_rest_fragment (* 139 *)
  | S_sharp_key => Some B_hash_key_fragment (* 142 *)
  | S_sharp_all_keys => Some B_hash_all_keys_fragment (* 150 *)
  | S_binary_integer => Some B_parse_integer_literal (* 154 *)
  | S_octal_integer => Some B_parse_integer_literal (* 162 *)
  | S_hex_integer => Some B_parse_integer_literal (* 170 *)
  | S_lparen => Some B_lparen_fragment (* 176 *)
  | S_rparen => Some B_rparen_fragment (* 177 *)
  | S_comma => Some B_comma_fragment (* 178 *)
  | S_dot => Some B_dot_fragment (* 179 *)
  | S_ellipsis => Some B_ellipsis_fragment (* 183 *)
  | S_semicolon => Some B_semicolon_fragment (* 184 *)
  | S_colon_equal => Some B_make_binary_operator (* 196 *)
  | S_double_colon => Some B_colon_colon_fragment (* 198 *)
  | S_lbracket => Some B_lbracket_fragment (* 200 *)
  | S_rbracket => Some B_rbracket_fragment (* 201 *)
  | S_lbrace => Some B_lbrace_fragment (* 202 *)
  | S_rbrace => Some B_rbrace_fragment (* 203 *)
  | S_minus => Some B_make_minus (* 204 *)
  | S_equal => Some B_make_equal (* 207 *)
  | S_double_equal => Some B_make_double_equal (* 212 *)
  | S_arrow => Some B_equal_greater_fragment (* 215 *)
  | S_question => Some B_query_fragment (* 218 *)
  | S_double_question => Some B_query_query_fragment (* 222 *)
  | S_question_equal => Some B_query_equal_fragment (* 223 *)
  | S_question_at => Some B_query_at_fragment (* 224 *)
  | S_backslash_dot => Some B_dot_fragment (* 241 *)
  | S_backslash_ellipsis => Some B_make_escaped_ellipsis (* 245 *)
  | S_backslash_question => Some B_make_escaped_query (* 246 *)
  | S_backslash_sharp_next => Some B_make_escaped_hash_next_fragment (* 257 *)
  | S_backslash_sharp_rest => Some B_make_escaped_hash_rest_fragment (* 261 *)
  | S_backslash_sharp_key => Some B_make_escaped_hash_key_fragment (* 264 *)
  | S_backslash_sharp_all_keys => Some B_make_escaped_hash_all_keys_fragment (* 272 *)
  | S_backslash_double_question => Some B_make_escaped_query_query (* 273 *)
  | S_backslash_question_equal => Some B_make_escaped_query_equal (* 274 *)
  | S_backslash_done => Some B_make_quoted_name (* 279 *)
  | S_backslash_tilde => Some B_make_quoted_name (* 280 *)
  | S_backslash_tilde_equal => Some B_make_quoted_name (* 282 *)
  | S_backslash_colon_colon => Some B_make_escaped_colon_colon (* 287 *)
  | S_backslash_graphic_done => Some B_make_quoted_name (* 291 *)
  | S_backslash_graphic_pre_equal => Some B_make_quoted_name (* 294 *)
  | S_backslash_symbol => Some B_make_quoted_name (* 298 *)
  | S_plus => Some B_make_binary_operator (* 306 *)
  | S_tilde => Some B_make_tilde (* 309 *)
  | S_tilde_equal => Some B_make_binary_operator (* 311 *)
  | S_tilde_equal_equal => Some B_make_binary_operator (* 313 *)
  | S_operator_graphic => Some B_make_binary_operator (* 314 *)
  | S_operator_graphic_pre_equal => Some B_make_binary_operator (* 317 *)
  | S_history_or_leading_graphic => Some B_make_history_name (* 330 *)
  | S_leading_underscore => Some B_make_identifier (* 335 *)
  | S_symbol => Some B_make_identifier (* 339 *)
  | S_colon_keyword => Some B_make_keyword_symbol (* 344 *)
  | S_cname_binop => Some B_make_constrained_name (* 356 *)
  | S_cname_graphic_binop => Some B_make_constrained_name (* 358 *)
  | S_cname_tilde_equal => Some B_make_constrained_name (* 365 *)
  | S_cname_tilde_double_equal => Some B_make_constrained_name (* 368 *)
  | S_cname_angle => Some B_make_constrained_name (* 370 *)
  | S_cname_angle_equal => Some B_make_constrained_name (* 376 *)
  | S_cname_equal => Some B_make_constrained_name (* 381 *)
  | S_cname => Some B_make_constrained_name (* 398 *)
  | S_qname_binop => Some B_make_qualified_name (* 415 *)
  | S_qname_graphic_binop => Some B_make_qualified_name (* 416 *)
  | S_qname_tilde_equal => Some B_make_qualified_name (* 422 *)
  | S_qname_tilde_double_equal => Some B_make_qualified_name (* 424 *)
  | S_qname_angle => Some B_make_qualified_name (* 425 *)
  | S_qname_angle_equal => Some B_make_qualified_name (* 430 *)
  | S_qname_equal => Some B_make_qualified_name (* 434 *)
  | S_qname => Some B_make_qualified_name (* 450 *)
  | S_character => Some B_make_character_literal (* 468 *)
  | S_2_double_quotes => Some B_make_stringish_literal (* 478 *)
  | S_drm_string_end => Some B_make_stringish_literal (* 488 *)
  | S_multi_string_end => Some B_make_stringish_literal (* 518 *)
  | S_raw_2_double_quotes => Some B_make_raw_string_literal (* 541 *)
  | S_raw_one_line_string_end => Some B_make_raw_string_literal (* 550 *)
  | S_raw_multi_string_end => Some B_make_raw_string_literal (* 566 *)
  | S_decimal => Some B_parse_integer_literal (* 571 *)
  | S_ratio => Some B_parse_ratio_literal (* 594 *)
  | S_signed_decimal => Some B_parse_integer_literal (* 599 *)
  | S_signed_ratio => Some B_parse_ratio_literal (* 609 *)
  | S_decimal_dot => Some B_parse_fp_literal (* 612 *)
  | S_decimal_dot_decimal => Some B_parse_fp_literal (* 615 *)
  | S_fp_exp => Some B_parse_fp_literal (* 627 *)
  | S_decimal_exp => Some B_parse_fp_literal (* 639 *)
  | _ => None
  end.

Definition state_action (s : lstate) : option action :=
  match s with
  | S_delimited_comment_start => Some A_increment_delimited_comment_start_count (* 69 *)
  | S_delimited_comment_end => Some A_increment_delimited_comment_end_count (* 89 *)
  | S_string_start => Some A_increment_double_quote_start_count (* 472 *)
  | S_2_double_quotes => Some A_increment_double_quote_start_count (* 478 *)
  | S_multi_string_start => Some A_increment_double_quote_start_count (* 499 *)
  | S_multi_string_body => Some A_reset_double_quote_end_count (* 507 *)
  | S_multi_string_end => Some A_increment_double_quote_end_count (* 518 *)
  | S_multi_string_escape => Some A_reset_double_quote_end_count (* 524 *)
  | S_raw_string_start => Some A_increment_double_quote_start_count (* 536 *)
  | S_raw_2_double_quotes => Some A_increment_double_quote_start_count (* 541 *)
  | S_raw_multi_string_start => Some A_increment_double_quote_start_count (* 553 *)
  | S_raw_multi_string_body => Some A_reset_double_quote_end_count (* 559 *)
  | S_raw_multi_string_end => Some A_increment_double_quote_end_count (* 566 *)
  | _ => None
  end.

(** state-transitions; no transitions is the table #f. *)
Definition state_transitions (s : lstate) : list (on * lstate) :=
  match s with
  (* line 22 *)
  | S_start =>
      [(OnString [32; 9; 12; 10; 13], S_whitespace);
       (OnChar 47, S_slash);
       (OnChar 35, S_sharp);
       (OnChar 40, S_lparen);
       (OnChar 41, S_rparen);
       (OnChar 44, S_comma);
       (OnChar 46, S_dot);
       (OnChar 59, S_semicolon);
       (OnChar 91, S_lbracket);
       (OnChar 93, S_rbracket);
       (OnChar 123, S_lbrace);
       (OnChar 125, S_rbrace);
       (OnChar 58, S_colon);
       (OnChar 45, S_minus);
       (OnChar 61, S_equal);
       (OnChar 63, S_question);
       (OnChar 92, S_backslash);
       (OnChar 43, S_plus);
       (OnChar 126, S_tilde);
       (OnString [42; 94; 38; 124], S_operator_graphic);
       (OnString [60; 62], S_operator_graphic_pre_equal);
       (OnString [33; 37; 64], S_leading_graphic);
       (OnString [36], S_leading_dollar);
       (OnString [95], S_leading_underscore);
       (OnString [65; 45; 90; 97; 45; 122], S_symbol);
       (OnChar 39, S_quote);
       (OnChar 34, S_string_start);
       (OnString [48; 45; 57], S_decimal)]
  (* line 52 *)
  | S_whitespace =>
      [(OnString [32; 9; 12; 10; 13], S_whitespace)]
  (* line 54 *)
  | S_slash =>
      [(OnChar 47, S_single_line_comment);
       (OnChar 42, S_delimited_comment_start)]
  (* line 58 *)
  | S_single_line_comment =>
      [(OnString [10], S_single_line_comment_end);
       (OnString [13], S_single_line_comment_cr);
       (OnOtherwise, S_single_line_comment)]
  (* line 64 *)
  | S_single_line_comment_cr =>
      [(OnChar 10, S_single_line_comment_end)]
  (* line 69 *)
  | S_delimited_comment_start =>
      [(OnChar 47, S_delimited_comment_slash);
       (OnChar 42, S_delimited_comment_star);
       (OnOtherwise, S_delimited_comment_body)]
  (* line 74 *)
  | S_delimited_comment_slash =>
      [(OnChar 47, S_delimited_comment_slash_slash);
       (OnChar 42, S_delimited_comment_start);
       (OnOtherwise, S_delimited_comment_body)]
  (* line 78 *)
  | S_delimited_comment_slash_slash =>
      [(OnString [10; 13], S_delimited_comment_body);
       (OnOtherwise, S_delimited_comment_slash_slash)]
  (* line 81 *)
  | S_delimited_comment_star =>
      [(OnChar 47, S_delimited_comment_end);
       (OnChar 42, S_delimited_comment_star);
       (OnOtherwise, S_delimited_comment_body)]
  (* line 85 *)
  | S_delimited_comment_body =>
      [(OnChar 47, S_delimited_comment_slash);
       (OnChar 42, S_delimited_comment_star);
       (OnOtherwise, S_delimited_comment_body)]
  (* line 89 *)
  | S_delimited_comment_end =>
      [(OnOtherwise, S_delimited_comment_body)]
  (* line 93 *)
  | S_sharp =>
      [(OnChar 40, S_sharp_paren);
       (OnChar 91, S_sharp_bracket);
       (OnChar 123, S_sharp_brace);
       (OnChar 35, S_sharp_sharp);
       (OnChar 34, S_string_start);
       (OnChar 58, S_sharp_colon);
       (OnString [98; 66], S_sharp_b);
       (OnString [111; 79], S_sharp_o);
       (OnString [120; 88], S_sharp_x);
       (OnString [116; 84], S_true);
       (OnString [102; 70], S_false);
       (OnString [110; 78], S_sharp_n);
       (OnString [114; 82], S_sharp_r);
       (OnString [107; 75], S_sharp_k);
       (OnString [97; 65], S_sharp_a)]
  (* line 114 *)
  | S_sharp_colon =>
      [(OnString [97; 45; 122; 65; 45; 90], S_sharp_colon_alphabetic);
       (OnString [48; 45; 57; 33; 38; 42; 60; 62; 124; 94; 36; 37; 64; 95], S_sharp_colon_non_alphabetic)]
  (* line 117 *)
  | S_sharp_colon_alphabetic =>
      [(OnChar 58, S_sharp_colon_done);
       (OnString [97; 45; 122; 65; 45; 90; 48; 45; 57; 33; 38; 42; 60; 62; 124; 94; 36; 37; 64; 95; 43; 126; 63; 47; 61; 45], S_sharp_colon_alphabetic)]
  (* line 120 *)
  | S_sharp_colon_non_alphabetic =>
      [(OnString [48; 45; 57; 33; 38; 42; 60; 62; 124; 94; 36; 37; 64; 95; 43; 126; 63; 47; 61; 45], S_sharp_colon_non_alphabetic);
       (OnString [97; 45; 122; 65; 45; 90], S_sharp_colon_1alpha)]
  (* line 123 *)
  | S_sharp_colon_1alpha =>
      [(OnString [97; 45; 122; 65; 45; 90], S_sharp_colon_alphabetic);
       (OnString [48; 45; 57; 33; 38; 42; 60; 62; 124; 94; 36; 37; 64; 95; 43; 126; 63; 47; 61; 45], S_sharp_colon_non_alphabetic)]
  (* line 130 *)
  | S_sharp_n =>
      [(OnString [101; 69], S_sharp_ne)]
  (* line 131 *)
  | S_sharp_ne =>
      [(OnString [120; 88], S_sharp_nex)]
  (* line 132 *)
  | S_sharp_nex =>
      [(OnString [116; 84], S_sharp_next)]
  (* line 134 *)
  | S_sharp_r =>
      [(OnString [101; 69], S_sharp_re);
       (OnChar 34, S_raw_string_start)]
  (* line 137 *)
  | S_sharp_re =>
      [(OnString [115; 83], S_sharp_res)]
  (* line 138 *)
  | S_sharp_res =>
      [(OnString [116; 84], S_sharp_rest)]
  (* line 140 *)
  | S_sharp_k =>
      [(OnString [101; 69], S_sharp_ke)]
  (* line 141 *)
  | S_sharp_ke =>
      [(OnString [121; 89], S_sharp_key)]
  (* line 143 *)
  | S_sharp_a =>
      [(OnString [108; 76], S_sharp_al)]
  (* line 144 *)
  | S_sharp_al =>
      [(OnString [108; 76], S_sharp_all)]
  (* line 145 *)
  | S_sharp_all =>
      [(OnChar 45, S_sharp_all_minus)]
  (* line 146 *)
  | S_sharp_all_minus =>
      [(OnString [107; 75], S_sharp_all_k)]
  (* line 147 *)
  | S_sharp_all_k =>
      [(OnString [101; 69], S_sharp_all_ke)]
  (* line 148 *)
  | S_sharp_all_ke =>
      [(OnString [121; 89], S_sharp_all_key)]
  (* line 149 *)
  | S_sharp_all_key =>
      [(OnString [115; 83], S_sharp_all_keys)]
  (* line 152 *)
  | S_sharp_b =>
      [(OnString [48; 49], S_binary_integer)]
  (* line 154 *)
  | S_binary_integer =>
      [(OnString [48; 49], S_binary_integer);
       (OnChar 95, S_binary_integer_underscore)]
  (* line 157 *)
  | S_binary_integer_underscore =>
      [(OnString [48; 49], S_binary_integer)]
  (* line 160 *)
  | S_sharp_o =>
      [(OnString [48; 45; 55], S_octal_integer)]
  (* line 162 *)
  | S_octal_integer =>
      [(OnString [48; 45; 55], S_octal_integer);
       (OnChar 95, S_octal_integer_underscore)]
  (* line 165 *)
  | S_octal_integer_underscore =>
      [(OnString [48; 45; 55], S_octal_integer)]
  (* line 168 *)
  | S_sharp_x =>
      [(OnString [48; 45; 57; 97; 45; 102; 65; 45; 70], S_hex_integer)]
  (* line 170 *)
  | S_hex_integer =>
      [(OnString [48; 45; 57; 97; 45; 102; 65; 45; 70], S_hex_integer);
       (OnChar 95, S_hex_integer_underscore)]
  (* line 173 *)
  | S_hex_integer_underscore =>
      [(OnString [48; 45; 57; 97; 45; 102; 65; 45; 70], S_hex_integer)]
  (* line 179 *)
  | S_dot =>
      [(OnChar 46, S_dot_dot);
       (OnString [48; 49; 50; 51; 52; 53; 54; 55; 56; 57], S_decimal_dot_decimal)]
  (* line 182 *)
  | S_dot_dot =>
      [(OnChar 46, S_ellipsis)]
  (* line 185 *)
  | S_colon =>
      [(OnChar 61, S_colon_equal);
       (OnChar 58, S_double_colon);
       (OnString [97; 45; 122; 65; 45; 90], S_cname);
       (OnString [48; 45; 57], S_cname_leading_numeric);
       (OnString [33; 36; 37; 64; 95], S_cname_leading_graphic);
       (OnString [43; 47], S_cname_binop);
       (OnChar 45, S_cname_binop);
       (OnString [42; 94; 38; 124], S_cname_graphic_binop);
       (OnChar 126, S_cname_tilde);
       (OnString [60; 62], S_cname_angle)]
  (* line 196 *)
  | S_colon_equal =>
      [(OnChar 61, S_cname_binop)]
  (* line 198 *)
  | S_double_colon =>
      [(OnChar 61, S_cname_binop)]
  (* line 204 *)
  | S_minus =>
      [(OnString [48; 45; 57], S_signed_decimal);
       (OnChar 46, S_decimal_dot)]
  (* line 207 *)
  | S_equal =>
      [(OnChar 61, S_double_equal);
       (OnChar 62, S_arrow);
       (OnString [97; 45; 122; 65; 45; 90], S_symbol);
       (OnString [48; 45; 57; 33; 38; 42; 60; 124; 94; 36; 37; 64; 95; 45; 43; 126; 63; 47], S_leading_graphic)]
  (* line 212 *)
  | S_double_equal =>
      [(OnString [97; 45; 122; 65; 45; 90], S_symbol);
       (OnString [48; 45; 57; 33; 38; 42; 60; 61; 62; 124; 94; 36; 37; 64; 95; 45; 43; 126; 63; 47], S_leading_graphic)]
  (* line 215 *)
  | S_arrow =>
      [(OnString [97; 45; 122; 65; 45; 90], S_symbol);
       (OnString [48; 45; 57; 33; 38; 42; 60; 61; 62; 124; 94; 36; 37; 64; 95; 45; 43; 126; 63; 47], S_leading_graphic)]
  (* line 218 *)
  | S_question =>
      [(OnChar 63, S_double_question);
       (OnChar 61, S_question_equal);
       (OnChar 64, S_question_at)]
  (* line 225 *)
  | S_backslash =>
      [(OnString [45; 43; 47], S_backslash_done);
       (OnChar 126, S_backslash_tilde);
       (OnChar 58, S_backslash_colon);
       (OnChar 35, S_backslash_sharp);
       (OnString [97; 45; 122; 65; 45; 90], S_backslash_symbol);
       (OnString [48; 45; 57], S_backslash_digit);
       (OnChar 37, S_backslash_percent);
       (OnString [33; 36; 64; 95], S_backslash_graphic);
       (OnString [38; 42; 94; 124], S_backslash_graphic_done);
       (OnString [61; 60; 62], S_backslash_graphic_pre_equal);
       (OnChar 46, S_backslash_dot);
       (OnChar 63, S_backslash_question)]
  (* line 241 *)
  | S_backslash_dot =>
      [(OnChar 46, S_backslash_dot_dot)]
  (* line 243 *)
  | S_backslash_dot_dot =>
      [(OnChar 46, S_backslash_ellipsis)]
  (* line 246 *)
  | S_backslash_question =>
      [(OnString [63], S_backslash_double_question);
       (OnString [61], S_backslash_question_equal)]
  (* line 249 *)
  | S_backslash_sharp =>
      [(OnString [110; 78], S_backslash_sharp_n);
       (OnString [114; 82], S_backslash_sharp_r);
       (OnString [107; 75], S_backslash_sharp_k);
       (OnString [97; 65], S_backslash_sharp_a)]
  (* line 254 *)
  | S_backslash_sharp_n =>
      [(OnString [101; 69], S_backslash_sharp_ne)]
  (* line 255 *)
  | S_backslash_sharp_ne =>
      [(OnString [120; 88], S_backslash_sharp_nex)]
  (* line 256 *)
  | S_backslash_sharp_nex =>
      [(OnString [116; 84], S_backslash_sharp_next)]
  (* line 258 *)
  | S_backslash_sharp_r =>
      [(OnString [101; 69], S_backslash_sharp_re)]
  (* line 259 *)
  | S_backslash_sharp_re =>
      [(OnString [115; 83], S_backslash_sharp_res)]
  (* line 260 *)
  | S_backslash_sharp_res =>
      [(OnString [116; 84], S_backslash_sharp_rest)]
  (* line 262 *)
  | S_backslash_sharp_k =>
      [(OnString [101; 69], S_backslash_sharp_ke)]
  (* line 263 *)
  | S_backslash_sharp_ke =>
      [(OnString [121; 89], S_backslash_sharp_key)]
  (* line 265 *)
  | S_backslash_sharp_a =>
      [(OnString [108; 76], S_backslash_sharp_al)]
  (* line 266 *)
  | S_backslash_sharp_al =>
      [(OnString [108; 76], S_backslash_sharp_all)]
  (* line 267 *)
  | S_backslash_sharp_all =>
      [(OnChar 45, S_backslash_sharp_all_minus)]
  (* line 268 *)
  | S_backslash_sharp_all_minus =>
      [(OnString [107; 75], S_backslash_sharp_all_k)]
  (* line 269 *)
  | S_backslash_sharp_all_k =>
      [(OnString [101; 69], S_backslash_sharp_all_ke)]
  (* line 270 *)
  | S_backslash_sharp_all_ke =>
      [(OnString [121; 89], S_backslash_sharp_all_key)]
  (* line 271 *)
  | S_backslash_sharp_all_key =>
      [(OnString [115; 83], S_backslash_sharp_all_keys)]
  (* line 275 *)
  | S_backslash_percent =>
      [(OnString [45; 43; 42; 47], S_backslash_done);
       (OnString [97; 45; 122; 65; 45; 90], S_backslash_symbol);
       (OnString [48; 45; 57; 33; 38; 60; 61; 62; 124; 94; 36; 37; 64; 95; 126; 63], S_backslash_graphic)]
  (* line 280 *)
  | S_backslash_tilde =>
      [(OnChar 61, S_backslash_tilde_equal)]
  (* line 282 *)
  | S_backslash_tilde_equal =>
      [(OnChar 61, S_backslash_done)]
  (* line 284 *)
  | S_backslash_colon =>
      [(OnChar 61, S_backslash_done);
       (OnChar 58, S_backslash_colon_colon)]
  (* line 288 *)
  | S_backslash_graphic =>
      [(OnString [45; 48; 45; 57; 33; 38; 42; 60; 61; 62; 124; 94; 36; 37; 64; 95; 43; 126; 63; 47], S_backslash_graphic);
       (OnString [97; 45; 122; 65; 45; 90], S_backslash_symbol)]
  (* line 291 *)
  | S_backslash_graphic_done =>
      [(OnString [45; 48; 45; 57; 33; 38; 42; 60; 61; 62; 124; 94; 36; 37; 64; 95; 43; 126; 63; 47], S_backslash_graphic);
       (OnString [97; 45; 122; 65; 45; 90], S_backslash_symbol)]
  (* line 294 *)
  | S_backslash_graphic_pre_equal =>
      [(OnChar 61, S_backslash_graphic_done);
       (OnString [45; 48; 45; 57; 33; 38; 42; 60; 62; 124; 94; 36; 37; 64; 95; 43; 126; 63; 47], S_backslash_graphic);
       (OnString [97; 45; 122; 65; 45; 90], S_backslash_symbol)]
  (* line 298 *)
  | S_backslash_symbol =>
      [(OnString [45; 43; 126; 63; 47; 33; 38; 42; 60; 61; 62; 124; 94; 36; 37; 64; 95; 48; 45; 57; 97; 45; 122; 65; 45; 90], S_backslash_symbol)]
  (* line 300 *)
  | S_backslash_digit =>
      [(OnString [45; 48; 45; 57; 33; 38; 42; 60; 61; 62; 124; 94; 36; 37; 64; 95; 43; 126; 63; 47], S_backslash_digit);
       (OnString [97; 45; 122; 65; 45; 90], S_backslash_digit_alpha)]
  (* line 303 *)
  | S_backslash_digit_alpha =>
      [(OnString [45; 48; 45; 57; 33; 38; 42; 60; 61; 62; 124; 94; 36; 37; 64; 95; 43; 126; 63; 47], S_backslash_digit);
       (OnString [97; 45; 122; 65; 45; 90], S_backslash_symbol)]
  (* line 306 *)
  | S_plus =>
      [(OnString [48; 45; 57], S_signed_decimal);
       (OnChar 46, S_decimal_dot)]
  (* line 309 *)
  | S_tilde =>
      [(OnChar 61, S_tilde_equal)]
  (* line 311 *)
  | S_tilde_equal =>
      [(OnChar 61, S_tilde_equal_equal)]
  (* line 314 *)
  | S_operator_graphic =>
      [(OnString [97; 45; 122; 65; 45; 90], S_symbol);
       (OnString [48; 45; 57; 33; 38; 42; 60; 61; 62; 124; 94; 36; 37; 64; 95; 45; 43; 126; 63; 47], S_leading_graphic)]
  (* line 317 *)
  | S_operator_graphic_pre_equal =>
      [(OnChar 61, S_operator_graphic);
       (OnString [97; 45; 122; 65; 45; 90], S_symbol);
       (OnString [48; 45; 57; 33; 38; 42; 60; 62; 124; 94; 36; 37; 64; 95; 45; 43; 126; 63; 47], S_leading_graphic)]
  (* line 321 *)
  | S_leading_graphic =>
      [(OnString [48; 45; 57; 33; 38; 42; 60; 61; 62; 124; 94; 36; 37; 64; 95; 43; 126; 63; 47], S_leading_graphic);
       (OnChar 45, S_leading_graphic);
       (OnString [97; 45; 122; 65; 45; 90], S_symbol)]
  (* line 325 *)
  | S_leading_dollar =>
      [(OnString [48; 45; 57], S_history_or_leading_graphic);
       (OnString [33; 38; 42; 60; 61; 62; 124; 94; 36; 37; 64; 95; 43; 126; 63; 47], S_leading_graphic);
       (OnChar 45, S_leading_graphic);
       (OnString [97; 45; 122; 65; 45; 90], S_symbol)]
  (* line 330 *)
  | S_history_or_leading_graphic =>
      [(OnString [48; 45; 57], S_history_or_leading_graphic);
       (OnString [33; 38; 42; 60; 61; 62; 124; 94; 36; 37; 64; 95; 43; 126; 63; 47], S_leading_graphic);
       (OnChar 45, S_leading_graphic);
       (OnString [97; 45; 122; 65; 45; 90], S_symbol)]
  (* line 335 *)
  | S_leading_underscore =>
      [(OnString [48; 45; 57; 33; 38; 42; 60; 61; 62; 124; 94; 36; 37; 64; 95; 43; 126; 63; 47], S_leading_graphic);
       (OnChar 45, S_leading_graphic);
       (OnString [97; 45; 122; 65; 45; 90], S_symbol)]
  (* line 339 *)
  | S_symbol =>
      [(OnString [97; 45; 122; 65; 45; 90; 48; 45; 57; 33; 38; 42; 60; 61; 62; 124; 94; 36; 37; 64; 95; 43; 126; 63; 47], S_symbol);
       (OnChar 45, S_symbol);
       (OnChar 58, S_colon_keyword)]
  (* line 344 *)
  | S_colon_keyword =>
      [(OnString [97; 45; 122; 65; 45; 90], S_cname);
       (OnString [48; 45; 57], S_cname_leading_numeric);
       (OnString [33; 36; 37; 64; 95], S_cname_leading_graphic);
       (OnString [43; 47], S_cname_binop);
       (OnChar 45, S_cname_binop);
       (OnString [42; 94; 38; 124], S_cname_graphic_binop);
       (OnChar 126, S_cname_tilde);
       (OnString [60; 62], S_cname_angle);
       (OnChar 61, S_cname_equal);
       (OnChar 58, S_cname_colon)]
  (* line 356 *)
  | S_cname_binop =>
      [(OnChar 58, S_colon_qname)]
  (* line 358 *)
  | S_cname_graphic_binop =>
      [(OnChar 58, S_colon_qname);
       (OnString [48; 45; 57; 33; 38; 42; 60; 62; 124; 94; 36; 37; 64; 95; 43; 126; 63; 47; 61], S_cname_leading_graphic);
       (OnChar 45, S_cname_leading_graphic);
       (OnString [97; 45; 122; 65; 45; 90], S_cname)]
  (* line 363 *)
  | S_cname_tilde =>
      [(OnChar 61, S_cname_tilde_equal)]
  (* line 365 *)
  | S_cname_tilde_equal =>
      [(OnChar 58, S_colon_qname);
       (OnChar 61, S_cname_tilde_double_equal)]
  (* line 368 *)
  | S_cname_tilde_double_equal =>
      [(OnChar 58, S_colon_qname)]
  (* line 370 *)
  | S_cname_angle =>
      [(OnChar 58, S_colon_qname);
       (OnChar 61, S_cname_angle_equal);
       (OnString [48; 45; 57; 33; 38; 42; 60; 62; 124; 94; 36; 37; 64; 95; 43; 126; 63; 47], S_cname_leading_graphic);
       (OnChar 45, S_cname_leading_graphic);
       (OnString [97; 45; 122; 65; 45; 90], S_cname)]
  (* line 376 *)
  | S_cname_angle_equal =>
      [(OnChar 58, S_colon_qname);
       (OnString [48; 45; 57; 33; 38; 42; 60; 62; 124; 94; 36; 37; 64; 95; 43; 126; 63; 47; 61], S_cname_leading_graphic);
       (OnChar 45, S_cname_leading_graphic);
       (OnString [97; 45; 122; 65; 45; 90], S_cname)]
  (* line 381 *)
  | S_cname_equal =>
      [(OnChar 58, S_colon_qname);
       (OnChar 61, S_cname_binop)]
  (* line 384 *)
  | S_cname_colon =>
      [(OnChar 61, S_cname_binop)]
  (* line 386 *)
  | S_cname_leading_numeric =>
      [(OnString [48; 45; 57; 33; 38; 42; 60; 62; 124; 94; 36; 37; 64; 95; 43; 126; 63; 47; 61], S_cname_leading_numeric);
       (OnChar 45, S_cname_leading_numeric);
       (OnString [97; 45; 122; 65; 45; 90], S_cname_numeric_alpha)]
  (* line 390 *)
  | S_cname_numeric_alpha =>
      [(OnString [48; 45; 57; 33; 38; 42; 60; 62; 124; 94; 36; 37; 64; 95; 43; 126; 63; 47; 61], S_cname_leading_numeric);
       (OnChar 45, S_cname_leading_numeric);
       (OnString [97; 45; 122; 65; 45; 90], S_cname)]
  (* line 394 *)
  | S_cname_leading_graphic =>
      [(OnString [48; 45; 57; 33; 38; 42; 60; 62; 124; 94; 36; 37; 64; 95; 43; 126; 63; 47; 61], S_cname_leading_graphic);
       (OnChar 45, S_cname_leading_graphic);
       (OnString [97; 45; 122; 65; 45; 90], S_cname)]
  (* line 398 *)
  | S_cname =>
      [(OnChar 58, S_colon_qname);
       (OnString [97; 45; 122; 65; 45; 90; 48; 45; 57; 33; 38; 42; 60; 62; 124; 94; 36; 37; 64; 95; 43; 126; 63; 47; 61], S_cname);
       (OnChar 45, S_cname)]
  (* line 403 *)
  | S_colon_qname =>
      [(OnString [97; 45; 122; 65; 45; 90], S_qname);
       (OnString [48; 45; 57], S_qname_leading_numeric);
       (OnString [33; 36; 37; 64; 95], S_qname_leading_graphic);
       (OnString [43; 47], S_qname_binop);
       (OnChar 45, S_qname_binop);
       (OnString [42; 94; 38; 124], S_qname_graphic_binop);
       (OnChar 126, S_qname_tilde);
       (OnString [60; 62], S_qname_angle);
       (OnChar 61, S_qname_equal);
       (OnChar 58, S_qname_colon)]
  (* line 416 *)
  | S_qname_graphic_binop =>
      [(OnString [48; 45; 57; 33; 38; 42; 60; 62; 124; 94; 36; 37; 64; 95; 43; 126; 63; 47; 61], S_qname_leading_graphic);
       (OnChar 45, S_qname_leading_graphic);
       (OnString [97; 45; 122; 65; 45; 90], S_qname)]
  (* line 420 *)
  | S_qname_tilde =>
      [(OnChar 61, S_qname_tilde_equal)]
  (* line 422 *)
  | S_qname_tilde_equal =>
      [(OnChar 61, S_qname_tilde_double_equal)]
  (* line 425 *)
  | S_qname_angle =>
      [(OnChar 61, S_qname_angle_equal);
       (OnString [48; 45; 57; 33; 38; 42; 60; 62; 124; 94; 36; 37; 64; 95; 43; 126; 63; 47], S_qname_leading_graphic);
       (OnChar 45, S_qname_leading_graphic);
       (OnString [97; 45; 122; 65; 45; 90], S_qname)]
  (* line 430 *)
  | S_qname_angle_equal =>
      [(OnString [48; 45; 57; 33; 38; 42; 60; 62; 124; 94; 36; 37; 64; 95; 43; 126; 63; 47; 61], S_qname_leading_graphic);
       (OnChar 45, S_qname_leading_graphic);
       (OnString [97; 45; 122; 65; 45; 90], S_qname)]
  (* line 434 *)
  | S_qname_equal =>
      [(OnChar 61, S_qname_binop)]
  (* line 436 *)
  | S_qname_colon =>
      [(OnChar 61, S_qname_binop)]
  (* line 438 *)
  | S_qname_leading_numeric =>
      [(OnString [48; 45; 57; 33; 38; 42; 60; 62; 124; 94; 36; 37; 64; 95; 43; 126; 63; 47; 61], S_qname_leading_numeric);
       (OnChar 45, S_qname_leading_numeric);
       (OnString [97; 45; 122; 65; 45; 90], S_qname_numeric_alpha)]
  (* line 442 *)
  | S_qname_numeric_alpha =>
      [(OnString [48; 45; 57; 33; 38; 42; 60; 62; 124; 94; 36; 37; 64; 95; 43; 126; 63; 47; 61], S_qname_leading_numeric);
       (OnChar 45, S_qname_leading_numeric);
       (OnString [97; 45; 122; 65; 45; 90], S_qname)]
  (* line 446 *)
  | S_qname_leading_graphic =>
      [(OnString [48; 45; 57; 33; 38; 42; 60; 62; 124; 94; 36; 37; 64; 95; 43; 126; 63; 47; 61], S_qname_leading_graphic);
       (OnChar 45, S_qname_leading_graphic);
       (OnString [97; 45; 122; 65; 45; 90], S_qname)]
  (* line 450 *)
  | S_qname =>
      [(OnString [97; 45; 122; 65; 45; 90; 48; 45; 57; 33; 38; 42; 60; 62; 124; 94; 36; 37; 64; 95; 43; 126; 63; 47; 61], S_qname);
       (OnChar 45, S_qname)]
  (* line 454 *)
  | S_quote =>
      [(OnString [39], S_not_allowed);
       (OnChar 92, S_quote_escape);
       (OnOtherwise, S_quote_char)]
  (* line 458 *)
  | S_quote_escape =>
      [(OnString [92; 39; 34; 97; 98; 101; 102; 110; 114; 116; 48], S_quote_char);
       (OnChar 60, S_quote_escape_less)]
  (* line 461 *)
  | S_quote_escape_less =>
      [(OnString [48; 45; 57; 97; 45; 102; 65; 45; 70], S_quote_hex_char_digits)]
  (* line 463 *)
  | S_quote_hex_char_digits =>
      [(OnString [48; 45; 57; 97; 45; 102; 65; 45; 70], S_quote_hex_char_digits);
       (OnChar 62, S_quote_char)]
  (* line 466 *)
  | S_quote_char =>
      [(OnChar 39, S_character)]
  (* line 472 *)
  | S_string_start =>
      [(OnChar 34, S_2_double_quotes);
       (OnChar 92, S_drm_string_escape);
       (OnString [9; 32; 33; 35; 45; 91; 93; 45; 126], S_drm_string_body);
       (OnString [128; 45; 255], S_drm_string_body)]
  (* line 478 *)
  | S_2_double_quotes =>
      [(OnChar 34, S_multi_string_start)]
  (* line 483 *)
  | S_drm_string_body =>
      [(OnChar 34, S_drm_string_end);
       (OnChar 92, S_drm_string_escape);
       (OnString [9; 32; 33; 35; 45; 91; 93; 45; 126], S_drm_string_body);
       (OnString [128; 45; 255], S_drm_string_body)]
  (* line 489 *)
  | S_drm_string_escape =>
      [(OnString [92; 39; 34; 97; 98; 101; 102; 110; 114; 116; 48], S_drm_string_body);
       (OnChar 60, S_drm_string_escape_less)]
  (* line 492 *)
  | S_drm_string_escape_less =>
      [(OnString [48; 45; 57; 97; 45; 102; 65; 45; 70], S_drm_string_hex_char_digits)]
  (* line 494 *)
  | S_drm_string_hex_char_digits =>
      [(OnString [48; 45; 57; 97; 45; 102; 65; 45; 70], S_drm_string_hex_char_digits);
       (OnChar 62, S_drm_string_body)]
  (* line 499 *)
  | S_multi_string_start =>
      [(OnChar 34, S_multi_string_start);
       (OnChar 92, S_multi_string_escape);
       (OnString [9; 13; 10; 32; 33; 35; 45; 91; 93; 45; 126], S_multi_string_body);
       (OnString [128; 45; 255], S_multi_string_body)]
  (* line 507 *)
  | S_multi_string_body =>
      [(OnChar 34, S_multi_string_end);
       (OnChar 92, S_multi_string_escape);
       (OnChar 12, S_not_allowed);
       (OnOtherwise, S_multi_string_body_continue)]
  (* line 513 *)
  | S_multi_string_body_continue =>
      [(OnChar 34, S_multi_string_end);
       (OnChar 92, S_multi_string_escape);
       (OnChar 12, S_not_allowed);
       (OnOtherwise, S_multi_string_body_continue)]
  (* line 518 *)
  | S_multi_string_end =>
      [(OnChar 34, S_multi_string_end);
       (OnChar 92, S_multi_string_escape);
       (OnChar 12, S_not_allowed);
       (OnOtherwise, S_multi_string_body)]
  (* line 524 *)
  | S_multi_string_escape =>
      [(OnString [92; 39; 34; 97; 98; 101; 102; 110; 114; 116; 48], S_multi_string_body_continue);
       (OnChar 60, S_multi_string_escape_less)]
  (* line 528 *)
  | S_multi_string_escape_less =>
      [(OnString [48; 45; 57; 97; 45; 102; 65; 45; 70], S_multi_string_hex_char_digits)]
  (* line 530 *)
  | S_multi_string_hex_char_digits =>
      [(OnString [48; 45; 57; 97; 45; 102; 65; 45; 70], S_multi_string_hex_char_digits);
       (OnChar 62, S_multi_string_body_continue)]
  (* line 536 *)
  | S_raw_string_start =>
      [(OnChar 34, S_raw_2_double_quotes);
       (OnString [9; 32; 33; 35; 45; 126], S_raw_one_line_string_body);
       (OnString [128; 45; 255], S_raw_one_line_string_body)]
  (* line 541 *)
  | S_raw_2_double_quotes =>
      [(OnChar 34, S_raw_multi_string_start)]
  (* line 546 *)
  | S_raw_one_line_string_body =>
      [(OnChar 34, S_raw_one_line_string_end);
       (OnString [9; 32; 33; 35; 45; 126], S_raw_one_line_string_body);
       (OnString [128; 45; 255], S_raw_one_line_string_body)]
  (* line 553 *)
  | S_raw_multi_string_start =>
      [(OnChar 34, S_raw_multi_string_start);
       (OnOtherwise, S_raw_multi_string_body)]
  (* line 559 *)
  | S_raw_multi_string_body =>
      [(OnChar 34, S_raw_multi_string_end);
       (OnOtherwise, S_raw_multi_string_body_continue)]
  (* line 563 *)
  | S_raw_multi_string_body_continue =>
      [(OnChar 34, S_raw_multi_string_end);
       (OnOtherwise, S_raw_multi_string_body_continue)]
  (* line 566 *)
  | S_raw_multi_string_end =>
      [(OnChar 34, S_raw_multi_string_end);
       (OnOtherwise, S_raw_multi_string_body)]
  (* line 571 *)
  | S_decimal =>
      [(OnString [48; 45; 57], S_decimal);
       (OnChar 47, S_decimal_slash);
       (OnChar 46, S_decimal_dot);
       (OnString [101; 69; 115; 83; 100; 68; 120; 88], S_decimal_e);
       (OnString [65; 66; 67; 70; 45; 82; 84; 45; 87; 89; 90; 97; 98; 99; 102; 45; 114; 116; 45; 119; 121; 122], S_numeric_alpha);
       (OnString [95], S_decimal_underscore)]
  (* line 578 *)
  | S_decimal_underscore =>
      [(OnString [48; 45; 57], S_decimal)]
  (* line 580 *)
  | S_decimal_slash =>
      [(OnString [48; 45; 57], S_ratio);
       (OnString [97; 45; 122; 65; 45; 90], S_numeric_alpha);
       (OnString [33; 38; 42; 60; 61; 62; 124; 94; 36; 37; 64; 95; 43; 126; 63; 47], S_leading_numeric);
       (OnChar 45, S_leading_numeric)]
  (* line 585 *)
  | S_numeric_alpha =>
      [(OnString [97; 45; 122; 65; 45; 90], S_symbol);
       (OnString [48; 45; 57; 33; 38; 42; 60; 61; 62; 124; 94; 36; 37; 64; 95; 43; 126; 63; 47], S_leading_numeric);
       (OnChar 45, S_leading_numeric)]
  (* line 589 *)
  | S_leading_numeric =>
      [(OnString [97; 45; 122; 65; 45; 90], S_numeric_alpha);
       (OnString [48; 45; 57; 33; 38; 42; 60; 61; 62; 124; 94; 36; 37; 64; 95; 43; 126; 63; 47], S_leading_numeric);
       (OnChar 45, S_leading_numeric)]
  (* line 594 *)
  | S_ratio =>
      [(OnString [48; 45; 57], S_ratio);
       (OnString [97; 45; 122; 65; 45; 90], S_numeric_alpha);
       (OnString [45; 33; 38; 42; 60; 61; 62; 124; 94; 36; 37; 64; 95; 43; 126; 63; 47], S_leading_numeric)]
  (* line 599 *)
  | S_signed_decimal =>
      [(OnString [48; 45; 57], S_signed_decimal);
       (OnChar 47, S_signed_decimal_slash);
       (OnChar 46, S_decimal_dot);
       (OnString [101; 69; 115; 83; 100; 68; 120; 88], S_fp_e);
       (OnChar 95, S_signed_decimal_underscore)]
  (* line 605 *)
  | S_signed_decimal_underscore =>
      [(OnString [48; 45; 57], S_signed_decimal)]
  (* line 607 *)
  | S_signed_decimal_slash =>
      [(OnString [48; 45; 57], S_signed_ratio)]
  (* line 609 *)
  | S_signed_ratio =>
      [(OnString [48; 45; 57], S_signed_ratio)]
  (* line 612 *)
  | S_decimal_dot =>
      [(OnString [48; 45; 57], S_decimal_dot_decimal);
       (OnString [101; 69; 115; 83; 100; 68; 120; 88], S_fp_e)]
  (* line 615 *)
  | S_decimal_dot_decimal =>
      [(OnChar 95, S_decimal_dot_decimal_underscore);
       (OnString [48; 45; 57], S_decimal_dot);
       (OnString [101; 69; 115; 83; 100; 68; 120; 88], S_fp_e)]
  (* line 619 *)
  | S_decimal_dot_decimal_underscore =>
      [(OnString [48; 45; 57], S_decimal_dot_decimal)]
  (* line 621 *)
  | S_fp_e =>
      [(OnChar 45, S_fp_e_sign);
       (OnChar 43, S_fp_e_sign);
       (OnString [48; 45; 57], S_fp_exp)]
  (* line 625 *)
  | S_fp_e_sign =>
      [(OnString [48; 45; 57], S_fp_exp)]
  (* line 627 *)
  | S_fp_exp =>
      [(OnString [48; 45; 57], S_fp_exp);
       (OnChar 95, S_fp_exp_underscore)]
  (* line 630 *)
  | S_fp_exp_underscore =>
      [(OnString [48; 45; 57], S_fp_exp)]
  (* line 633 *)
  | S_decimal_e =>
      [(OnString [97; 45; 122; 65; 45; 90], S_symbol);
       (OnString [91; 48; 45; 57; 93], S_decimal_exp);
       (OnString [33; 38; 42; 60; 61; 62; 124; 94; 36; 37; 64; 95; 126; 63; 47], S_leading_numeric);
       (OnChar 45, S_decimal_e_sign);
       (OnChar 43, S_decimal_e_sign)]
  (* line 639 *)
  | S_decimal_exp =>
      [(OnString [48; 45; 57], S_decimal_exp);
       (OnString [97; 45; 122; 65; 45; 90], S_numeric_alpha);
       (OnString [33; 38; 42; 60; 61; 62; 124; 94; 36; 37; 64; 95; 43; 126; 63; 47], S_leading_numeric);
       (OnString [45], S_leading_numeric)]
  (* line 644 *)
  | S_decimal_e_sign =>
      [(OnString [48; 45; 57], S_decimal_exp);
       (OnString [97; 45; 122; 65; 45; 90], S_numeric_alpha);
       (OnString [33; 38; 42; 60; 61; 62; 124; 94; 36; 37; 64; 95; 43; 126; 63; 47], S_leading_numeric);
       (OnString [45], S_leading_numeric)]
  | _ => []
  end.

Definition all_states : list lstate :=
  [S_not_allowed;
   S_start;
   S_whitespace;
   S_slash;
   S_single_line_comment;
   S_single_line_comment_cr;
   S_single_line_comment_end;
   S_delimited_comment_start;
   S_delimited_comment_slash;
   S_delimited_comment_slash_slash;
   S_delimited_comment_star;
   S_delimited_comment_body;
   S_delimited_comment_end;
   S_sharp;
   S_sharp_paren;
   S_sharp_bracket;
   S_sharp_brace;
   S_sharp_sharp;
   S_sharp_colon;
   S_sharp_colon_alphabetic;
   S_sharp_colon_non_alphabetic;
   S_sharp_colon_1alpha;
   S_sharp_colon_done;
   S_true;
   S_false;
   S_sharp_n;
   S_sharp_ne;
   S_sharp_nex;
   S_sharp_next;
   S_sharp_r;
   S_sharp_re;
   S_sharp_res;
   S_sharp_rest;
   S_sharp_k;
   S_sharp_ke;
   S_sharp_key;
   S_sharp_a;
   S_sharp_al;
   S_sharp_all;
   S_sharp_all_minus;
   S_sharp_all_k;
   S_sharp_all_ke;
   S_sharp_all_key;
   S_sharp_all_keys;
   S_sharp_b;
   S_binary_integer;
   S_binary_integer_underscore;
   S_sharp_o;
   S_octal_integer;
   S_octal_integer_underscore;
   S_sharp_x;
   S_hex_integer;
   S_hex_integer_underscore;
   S_lparen;
   S_rparen;
   S_comma;
   S_dot;
   S_dot_dot;
   S_ellipsis;
   S_semicolon;
   S_colon;
   S_colon_equal;
   S_double_colon;
   S_lbracket;
   S_rbracket;
   S_lbrace;
   S_rbrace;
   S_minus;
   S_equal;
   S_double_equal;
   S_arrow;
   S_question;
   S_double_question;
   S_question_equal;
   S_question_at;
   S_backslash;
   S_backslash_dot;
   S_backslash_dot_dot;
   S_backslash_ellipsis;
   S_backslash_question;
   S_backslash_sharp;
   S_backslash_sharp_n;
   S_backslash_sharp_ne;
   S_backslash_sharp_nex;
   S_backslash_sharp_next;
   S_backslash_sharp_r;
   S_backslash_sharp_re;
   S_backslash_sharp_res;
   S_backslash_sharp_rest;
   S_backslash_sharp_k;
   S_backslash_sharp_ke;
   S_backslash_sharp_key;
   S_backslash_sharp_a;
   S_backslash_sharp_al;
   S_backslash_sharp_all;
   S_backslash_sharp_all_minus;
   S_backslash_sharp_all_k;
   S_backslash_sharp_all_ke;
   S_backslash_sharp_all_key;
   S_backslash_sharp_all_keys;
   S_backslash_double_question;
   S_backslash_question_equal;
   S_backslash_percent;
   S_backslash_done;
   S_backslash_tilde;
   S_backslash_tilde_equal;
   S_backslash_colon;
   S_backslash_colon_colon;
   S_backslash_graphic;
   S_backslash_graphic_done;
   S_backslash_graphic_pre_equal;
   S_backslash_symbol;
   S_backslash_digit;
   S_backslash_digit_alpha;
   S_plus;
   S_tilde;
   S_tilde_equal;
   S_tilde_equal_equal;
   S_operator_graphic;
   S_operator_graphic_pre_equal;
   S_leading_graphic;
   S_leading_dollar;
   S_history_or_leading_graphic;
   S_leading_underscore;
   S_symbol;
   S_colon_keyword;
   S_cname_binop;
   S_cname_graphic_binop;
   S_cname_tilde;
   S_cname_tilde_equal;
   S_cname_tilde_double_equal;
   S_cname_angle;
   S_cname_angle_equal;
   S_cname_equal;
   S_cname_colon;
   S_cname_leading_numeric;
   S_cname_numeric_alpha;
   S_cname_leading_graphic;
   S_cname;
   S_colon_qname;
   S_qname_binop;
   S_qname_graphic_binop;
   S_qname_tilde;
   S_qname_tilde_equal;
   S_qname_tilde_double_equal;
   S_qname_angle;
   S_qname_angle_equal;
   S_qname_equal;
   S_qname_colon;
   S_qname_leading_numeric;
   S_qname_numeric_alpha;
   S_qname_leading_graphic;
   S_qname;
   S_quote;
   S_quote_escape;
   S_quote_escape_less;
   S_quote_hex_char_digits;
   S_quote_char;
   S_character;
   S_string_start;
   S_2_double_quotes;
   S_drm_string_body;
   S_drm_string_end;
   S_drm_string_escape;
   S_drm_string_escape_less;
   S_drm_string_hex_char_digits;
   S_multi_string_start;
   S_multi_string_body;
   S_multi_string_body_continue;
   S_multi_string_end;
   S_multi_string_escape;
   S_multi_string_escape_less;
   S_multi_string_hex_char_digits;
   S_raw_string_start;
   S_raw_2_double_quotes;
   S_raw_one_line_string_body;
   S_raw_one_line_string_end;
   S_raw_multi_string_start;
   S_raw_multi_string_body;
   S_raw_multi_string_body_continue;
   S_raw_multi_string_end;
   S_decimal;
   S_decimal_underscore;
   S_decimal_slash;
   S_numeric_alpha;
   S_leading_numeric;
   S_ratio;
   S_signed_decimal;
   S_signed_decimal_underscore;
   S_signed_decimal_slash;
   S_signed_ratio;
   S_decimal_dot;
   S_decimal_dot_decimal;
   S_decimal_dot_decimal_underscore;
   S_fp_e;
   S_fp_e_sign;
   S_fp_exp;
   S_fp_exp_underscore;
   S_decimal_e;
   S_decimal_exp;
   S_decimal_e_sign].

(** The place of a state in this list. *)
Definition state_index (s : lstate) : nat :=
  match s with
  | S_not_allowed => 0%nat
  | S_start => 1%nat
  | S_whitespace => 2%nat
  | S_slash => 3%nat
  | S_single_line_comment => 4%nat
  | S_single_line_comment_cr => 5%nat
  | S_single_line_comment_end => 6%nat
  | S_delimited_comment_start => 7%nat
  | S_delimited_comment_slash => 8%nat
  | S_delimited_comment_slash_slash => 9%nat
  | S_delimited_comment_star => 10%nat
  | S_delimited_comment_body => 11%nat
  | S_delimited_comment_end => 12%nat
  | S_sharp => 13%nat
  | S_sharp_paren => 14%nat
  | S_sharp_bracket => 15%nat
  | S_sharp_brace => 16%nat
  | S_sharp_sharp => 17%nat
  | S_sharp_colon => 18%nat
  | S_sharp_colon_alphabetic => 19%nat
  | S_sharp_colon_non_alphabetic => 20%nat
  | S_sharp_colon_1alpha => 21%nat
  | S_sharp_colon_done => 22%nat
  | S_true => 23%nat
  | S_false => 24%nat
  | S_sharp_n => 25%nat
  | S_sharp_ne => 26%nat
  | S_sharp_nex => 27%nat
  | S_sharp_next => 28%nat
  | S_sharp_r => 29%nat
  | S_sharp_re => 30%nat
  | S_sharp_res => 31%nat
  | S_sharp_rest => 32%nat
  | S_sharp_k => 33%nat
  | S_sharp_ke => 34%nat
  | S_sharp_key => 35%nat
  | S_sharp_a => 36%nat
  | S_sharp_al => 37%nat
  | S_sharp_all => 38%nat
  | S_sharp_all_minus => 39%nat
  | S_sharp_all_k => 40%nat
  | S_sharp_all_ke => 41%nat
  | S_sharp_all_key => 42%nat
  | S_sharp_all_keys => 43%nat
  | S_sharp_b => 44%nat
  | S_binary_integer => 45%nat
  | S_binary_integer_underscore => 46%nat
  | S_sharp_o => 47%nat
  | S_octal_integer => 48%nat
  | S_octal_integer_underscore => 49%nat
  | S_sharp_x => 50%nat
  | S_hex_integer => 51%nat
  | S_hex_integer_underscore => 52%nat
  | S_lparen => 53%nat
  | S_rparen => 54%nat
  | S_comma => 55%nat
  | S_dot => 56%nat
  | S_dot_dot => 57%nat
  | S_ellipsis => 58%nat
  | S_semicolon => 59%nat
  | S_colon => 60%nat
  | S_colon_equal => 61%nat
  | S_double_colon => 62%nat
  | S_lbracket => 63%nat
  | S_rbracket => 64%nat
  | S_lbrace => 65%nat
  | S_rbrace => 66%nat
  | S_minus => 67%nat
  | S_equal => 68%nat
  | S_double_equal => 69%nat
  | S_arrow => 70%nat
  | S_question => 71%nat
  | S_double_question => 72%nat
  | S_question_equal => 73%nat
  | S_question_at => 74%nat
  | S_backslash => 75%nat
  | S_backslash_dot => 76%nat
  | S_backslash_dot_dot => 77%nat
  | S_backslash_ellipsis => 78%nat
  | S_backslash_question => 79%nat
  | S_backslash_sharp => 80%nat
  | S_backslash_sharp_n => 81%nat
  | S_backslash_sharp_ne => 82%nat
  | S_backslash_sharp_nex => 83%nat
  | S_backslash_sharp_next => 84%nat
  | S_backslash_sharp_r => 85%nat
  | S_backslash_sharp_re => 86%nat
  | S_backslash_sharp_res => 87%nat
  | S_backslash_sharp_rest => 88%nat
  | S_backslash_sharp_k => 89%nat
  | S_backslash_sharp_ke => 90%nat
  | S_backslash_sharp_key => 91%nat
  | S_backslash_sharp_a => 92%nat
  | S_backslash_sharp_al => 93%nat
  | S_backslash_sharp_all => 94%nat
  | S_backslash_sharp_all_minus => 95%nat
  | S_backslash_sharp_all_k => 96%nat
  | S_backslash_sharp_all_ke => 97%nat
  | S_backslash_sharp_all_key => 98%nat
  | S_backslash_sharp_all_keys => 99%nat
  | S_backslash_double_question => 100%nat
  | S_backslash_question_equal => 101%nat
  | S_backslash_percent => 102%nat
  | S_backslash_done => 103%nat
  | S_backslash_tilde => 104%nat
  | S_backslash_tilde_equal => 105%nat
  | S_backslash_colon => 106%nat
  | S_backslash_colon_colon => 107%nat
  | S_backslash_graphic => 108%nat
  | S_backslash_graphic_done => 109%nat
  | S_backslash_graphic_pre_equal => 110%nat
  | S_backslash_symbol => 111%nat
  | S_backslash_digit => 112%nat
  | S_backslash_digit_alpha => 113%nat
  | S_plus => 114%nat
  | S_tilde => 115%nat
  | S_tilde_equal => 116%nat
  | S_tilde_equal_equal => 117%nat
  | S_operator_graphic => 118%nat
  | S_operator_graphic_pre_equal => 119%nat
  | S_leading_graphic => 120%nat
  | S_leading_dollar => 121%nat
  | S_history_or_leading_graphic => 122%nat
  | S_leading_underscore => 123%nat
  | S_symbol => 124%nat
  | S_colon_keyword => 125%nat
  | S_cname_binop => 126%nat
  | S_cname_graphic_binop => 127%nat
  | S_cname_tilde => 128%nat
  | S_cname_tilde_equal => 129%nat
  | S_cname_tilde_double_equal => 130%nat
  | S_cname_angle => 131%nat
  | S_cname_angle_equal => 132%nat
  | S_cname_equal => 133%nat
  | S_cname_colon => 134%nat
  | S_cname_leading_numeric => 135%nat
  | S_cname_numeric_alpha => 136%nat
  | S_cname_leading_graphic => 137%nat
  | S_cname => 138%nat
  | S_colon_qname => 139%nat
  | S_qname_binop => 140%nat
  | S_qname_graphic_binop => 141%nat
  | S_qname_tilde => 142%nat
  | S_qname_tilde_equal => 143%nat
  | S_qname_tilde_double_equal => 144%nat
  | S_qname_angle => 145%nat
  | S_qname_angle_equal => 146%nat
  | S_qname_equal => 147%nat
  | S_qname_colon => 148%nat
  | S_qname_leading_numeric => 149%nat
  | S_qname_numeric_alpha => 150%nat
  | S_qname_leading_graphic => 151%nat
  | S_qname => 152%nat
  | S_quote => 153%nat
  | S_quote_escape => 154%nat
  | S_quote_escape_less => 155%nat
  | S_quote_hex_char_digits => 156%nat
  | S_quote_char => 157%nat
  | S_character => 158%nat
  | S_string_start => 159%nat
  | S_2_double_quotes => 160%nat
  | S_drm_string_body => 161%nat
  | S_drm_string_end => 162%nat
  | S_drm_string_escape => 163%nat
  | S_drm_string_escape_less => 164%nat
  | S_drm_string_hex_char_digits => 165%nat
  | S_multi_string_start => 166%nat
  | S_multi_string_body => 167%nat
  | S_multi_string_body_continue => 168%nat
  | S_multi_string_end => 169%nat
  | S_multi_string_escape => 170%nat
  | S_multi_string_escape_less => 171%nat
  | S_multi_string_hex_char_digits => 172%nat
  | S_raw_string_start => 173%nat
  | S_raw_2_double_quotes => 174%nat
  | S_raw_one_line_string_body => 175%nat
  | S_raw_one_line_string_end => 176%nat
  | S_raw_multi_string_start => 177%nat
  | S_raw_multi_string_body => 178%nat
  | S_raw_multi_string_body_continue => 179%nat
  | S_raw_multi_string_end => 180%nat
  | S_decimal => 181%nat
  | S_decimal_underscore => 182%nat
  | S_decimal_slash => 183%nat
  | S_numeric_alpha => 184%nat
  | S_leading_numeric => 185%nat
  | S_ratio => 186%nat
  | S_signed_decimal => 187%nat
  | S_signed_decimal_underscore => 188%nat
  | S_signed_decimal_slash => 189%nat
  | S_signed_ratio => 190%nat
  | S_decimal_dot => 191%nat
  | S_decimal_dot_decimal => 192%nat
  | S_decimal_dot_decimal_underscore => 193%nat
  | S_fp_e => 194%nat
  | S_fp_e_sign => 195%nat
  | S_fp_exp => 196%nat
  | S_fp_exp_underscore => 197%nat
  | S_decimal_e => 198%nat
  | S_decimal_exp => 199%nat
  | S_decimal_e_sign => 200%nat
  end.
