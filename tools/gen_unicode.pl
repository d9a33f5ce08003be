#!/usr/bin/perl
# Writes rocq/theories/Unicode.v: Unicode property tables (perl's Unicode
# database, 15.0) as balanced search trees of code point ranges, and the
# lower case mapping.
use strict; use warnings; use utf8;
binmode(STDOUT, ":utf8");
my %props = (
  L => qr/\p{L}/, M => qr/\p{M}/, N => qr/\p{N}/, Nd => qr/\p{Nd}/,
  Lu => qr/\p{Lu}/, Ll => qr/\p{Ll}/, Pc => qr/\p{Pc}/, Sc => qr/\p{Sc}/,
  Word => qr/[\p{Alphabetic}\p{M}\p{Nd}\p{Pc}\p{Join_Control}]/,
  Alnum => qr/[\p{Alphabetic}\p{N}]/,
);
sub tree {
  my ($r, $lo, $hi) = @_;
  return "E" if $lo > $hi;
  my $mid = int(($lo + $hi) / 2);
  my ($a, $b) = @{$r->[$mid]};
  return "(T " . tree($r, $lo, $mid - 1) . " $a $b " . tree($r, $mid + 1, $hi) . ")";
}
print "(** Generated by tools/gen_unicode.pl from perl's Unicode database; do not edit.\n";
print "    Code point sets are balanced search trees of disjoint ranges. *)\n";
print "From Coq Require Import NArith List Bool.\nImport ListNotations.\nOpen Scope N_scope.\n\n";
print "Inductive rtree := E | T (l : rtree) (lo hi : N) (r : rtree).\n\n";
print "Fixpoint rmem (t : rtree) (c : N) : bool :=\n  match t with\n  | E => false\n  | T l lo hi r => if c <? lo then rmem l c else if hi <? c then rmem r c else true\n  end.\n\n";
for my $p (sort keys %props) {
  my $re = $props{$p}; my @r; my $start;
  for my $c (0 .. 0x110000) {
    my $in = 0;
    if ($c < 0x110000 && !($c >= 0xD800 && $c <= 0xDFFF)) { no warnings; $in = chr($c) =~ $re; }
    if ($in && !defined $start) { $start = $c }
    elsif (!$in && defined $start) { push @r, [$start, $c - 1]; undef $start }
  }
  my $s = tree(\@r, 0, $#r);
  $s =~ s/(.{90}\S*) /$1\n  /g;
  print "Definition tab_$p : rtree :=\n  $s.\n\n";
}
# lower case: code points whose lower case differs, as runs (lo, hi, step, delta) plus specials
my @m; my @special;
for my $c (0 .. 0x10FFFF) {
  next if $c >= 0xD800 && $c <= 0xDFFF;
  no warnings; my $l = lc(chr($c));
  next if $l eq chr($c);
  if (length($l) > 1) { push @special, [$c, [map { ord } split //, $l]]; next }
  push @m, [$c, ord($l)];
}
# compress to ranges with constant delta and step 1 or 2
my @runs; my $i = 0;
while ($i < @m) {
  my ($c, $d) = ($m[$i][0], $m[$i][1] - $m[$i][0]);
  my $best = $i; my $bstep = 1;
  for my $step (1, 2) {
    my $j = $i;
    while ($j + 1 < @m && $m[$j+1][0] == $m[$j][0] + $step && $m[$j+1][1] - $m[$j+1][0] == $d) { $j++ }
    if ($j > $best) { $best = $j; $bstep = $step }
  }
  push @runs, [$c, $m[$best][0], $bstep, $d]; $i = $best + 1;
}
print "(** Lower case: (first, last, step, new first); code points first, first+step, … last\n    are mapped with a constant offset. *)\n";
print "Definition lower_runs : list (N * N * N * N) :=\n  [ ", join("\n  ; ", map { "($_->[0], $_->[1], $_->[2], " . ($_->[0] + $_->[3]) . ")" } @runs), " ].\n\n";
print "Definition lower_special : list (N * list N) :=\n  [ ", join("\n  ; ", map { "($_->[0], [" . join("; ", @{$_->[1]}) . "])" } @special), " ].\n\n";
print <<'END';
Fixpoint lower_in (rs : list (N * N * N * N)) (c : N) : list N :=
  match rs with
  | [] => [c]
  | (lo, hi, st, nw) :: rs' =>
      if (lo <=? c) && (c <=? hi) && ((c - lo) mod st =? 0) then [nw + (c - lo)]
      else lower_in rs' c
  end.

(** [char::to_lowercase] *)
Definition lower_char (c : N) : list N :=
  if c <? 65 then [c] else
  match find (fun p => fst p =? c) lower_special with
  | Some p => snd p
  | None => lower_in lower_runs c
  end.
END
