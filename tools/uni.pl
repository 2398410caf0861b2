use strict; use warnings; use utf8;
use Unicode::UCD qw(prop_invmap); use Unicode::Normalize qw(NFD);
binmode STDOUT, ":utf8";
sub hex_ { sprintf("0x%X", $_[0]) }
my $present = qr/\p{Present_In: 13.0}/;
sub ranges { my ($re)=@_; my @out; my ($lo,$hi);
  for my $c (0..0x10FFFF) { next if $c>=0xD800 && $c<=0xDFFF; 
    my $ch=chr($c);
    my $m = ($ch =~ $re && $ch =~ $present);
    if ($m) { if (defined $hi && $hi==$c-1) { $hi=$c } else { push @out,[$lo,$hi] if defined $lo; ($lo,$hi)=($c,$c) } }
  }
  push @out,[$lo,$hi] if defined $lo; return \@out; }
sub emit { my ($name,$doc,$rs)=@_;
  print "(** $doc *)\nDefinition $name : list (N * N) :=\n  [";
  my $i=0; print join("; ", map { (($i++ % 5)==4 ? "\n   " : "")."(".hex_($_->[0]).", ".hex_($_->[1]).")" } @$rs); print "].\n\n"; }
print "(** Generated from the Unicode Character Database restricted to characters\n    present in Unicode 13.0 (the version of Go 1.19's package unicode and of\n    golang.org/x/text v0.5.0).  Sorted, disjoint, inclusive ranges. *)\nFrom Coq Require Import NArith ZArith List.\nImport ListNotations.\nOpen Scope N_scope.\n\n";
emit("tab_latin","unicode.Latin (internal/scripts/latn.go:15)",ranges(qr/\p{Script=Latin}/));
emit("tab_cyrillic","unicode.Cyrillic (internal/scripts/cyrl.go:12)",ranges(qr/\p{Script=Cyrillic}/));
emit("tab_greek","unicode.Greek (internal/scripts/grek.go:12)",ranges(qr/\p{Script=Greek}/));
emit("tab_georgian","unicode.Georgian (internal/scripts/geor.go:12)",ranges(qr/\p{Script=Georgian}/));
emit("tab_hiragana","unicode.Hiragana (internal/scripts/hrkt.go:13)",ranges(qr/\p{Script=Hiragana}/));
emit("tab_katakana","unicode.Katakana (internal/scripts/hrkt.go:14)",ranges(qr/\p{Script=Katakana}/));
emit("tab_mark","category M, unicode.IsMark (internal/scripts/cyrl.go:12)",ranges(qr/\p{M}/));
emit("tab_punct","category P, unicode.IsPunct (procedure.go:276, spec.go:314)",ranges(qr/\p{P}/));
emit("tab_letter","category L, unicode.IsLetter (pkg/hsl/lexer.go:132)",ranges(qr/\p{L}/));
emit("tab_digit","category Nd, unicode.IsDigit (pkg/hsl/lexer.go:136)",ranges(qr/\p{Nd}/));
# lower
my ($inv,$map,$fmt,$def)=prop_invmap("Simple_Lowercase_Mapping");
my %low;
for my $i (0..$#$inv) { my $v=$map->[$i]; next if $v==0; my $end=$i<$#$inv?$inv->[$i+1]-1:0x10FFFF;
  for my $c ($inv->[$i]..$end) { my $t=$v+($c-$inv->[$i]); next if $t==$c; next unless chr($c)=~$present && chr($t)=~$present; $low{$c}=$t; } }
my @ks=sort {$a<=>$b} keys %low; my @out; 
while(@ks){ my $c=shift @ks; my $d=$low{$c}-$c; my ($lo,$hi,$step)=($c,$c,1);
  # try step1
  if (@ks && $ks[0]==$c+1 && $low{$ks[0]}-$ks[0]==$d) { while(@ks && $ks[0]==$hi+1 && $low{$ks[0]}-$ks[0]==$d){$hi=shift @ks} }
  elsif (@ks && $ks[0]==$c+2 && $low{$ks[0]}-$ks[0]==$d) { $step=2; while(@ks && $ks[0]==$hi+2 && $low{$ks[0]}-$ks[0]==$d){$hi=shift @ks} }
  push @out,[$lo,$hi,$step,$d]; }
print "(** unicode.ToLower as (lo, hi, stride, delta). *)\nDefinition tab_lower : list (N * N * N * Z) :=\n  [";
my $i=0; print join("; ", map { (($i++ % 4)==3 ? "\n   " : "")."(".hex_($_->[0]).", ".hex_($_->[1]).", ".$_->[2].", (".$_->[3].")%Z)" } @out); print "].\n\n";
# full canonical decompositions of the latin characters
print "(** Full canonical decomposition (norm.NFD.PropertiesString(..).Decomposition())\n    of the Latin characters that have one (internal/scripts/latn.go:23-27). *)\nDefinition tab_nfd : list (N * list N) :=\n  [";
my @d; for my $c (0..0x10FFFF) { next if $c>=0xD800 && $c<=0xDFFF; my $ch=chr($c); next unless $ch=~/\p{Script=Latin}/ && $ch=~$present; my $n=NFD($ch); next if $n eq $ch; push @d,[$c,[map {ord($_)} split(//,$n)]]; }
$i=0; print join("; ", map { (($i++ % 3)==2 ? "\n   " : "")."(".hex_($_->[0]).", [".join("; ",map {hex_($_)} @{$_->[1]})."])" } @d); print "].\n";
