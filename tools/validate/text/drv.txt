open Model
let unhex s = List.init (String.length s / 2) (fun i -> Char.chr (int_of_string ("0x" ^ String.sub s (2*i) 2)))
let () = try while true do
  let s = input_line stdin in
  let l = unhex (String.sub s 1 (String.length s - 1)) in
  let f = match s.[0] with 'i' -> int_of | 'f' -> float_of | 'x' -> color_of | 's' -> strip_of | 'v' -> version_of | 't' -> tags_of | 'n' -> found | _ -> len_of in
  print_endline (String.concat "" (List.map (String.make 1) (f l)))
  done with End_of_file -> ()
